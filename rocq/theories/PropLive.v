(** PropLive: property C82 (remote ends that answer what they are asked) *)
From Verif Require Import Base ModelBencode ModelMessages ModelTorrent ModelTracker ModelStream ModelPeer ModelLive
  SpecBencode SpecTorrent SpecMessages SpecStream SpecWriter SpecPieces SpecPeer SpecSession SpecLive PropPeer PropSystem
  ProofSession ProofLive ProofAnswers.

(** C82: whatever a remote end does with what it is told, a session with it is a session with some socket on which things arrive as
    a schedule says: what holds for every schedule holds for every remote end. *)
Theorem C82_schedules : forall (R : Type) (hear : R -> bytes -> R) (say : R -> tick * R),
  (forall sha1 p fuel ws r pid ep i idx, exists l, forall tail,
     download_l R hear say sha1 p fuel ws r pid ep i idx = download sha1 p fuel (Some (scheduled ws (l ++ tail))) pid ep i idx) /\
  (forall fuel ws r pid ih ep, exists l, forall tail,
     get_info_l R hear say fuel ws r pid ih ep = get_info fuel (Some (scheduled ws (l ++ tail))) pid ih ep).
Proof. exact c82_schedules. Qed.
Print Assumptions C82_schedules.

(** C82: a server that unchokes, states a metadata size, and answers a request for a block within nine attempts to read, gives any piece
    that it has; if pieces consist of whole blocks of 16 KiB, or the piece is the last one. *)
Theorem C82_piece : forall sha1 p fuel v pid ep i idx total,
  parse_socket_addr ep <> None -> get_total_length p i = Ret total ->
  (0 < i_piece_length i)%N -> (idx < piece_count total (i_piece_length i))%N -> (total + i_piece_length i <= 2 ^ 64)%N ->
  (idx < 2 ^ 32)%N -> (i_piece_length i < 2 ^ 32)%N -> (forall b, List.length (sha1 b) = 20%nat) -> List.length pid = 20%nat ->
  (i_piece_length i mod 16384 = 0 \/ idx + 1 = piece_count total (i_piece_length i))%N ->
  sd_ih v = compute_info_hash sha1 i -> welcoming some_size v -> no_blocks v ->
  lenN (sd_piece v idx) = N.min (i_piece_length i) (total - idx * i_piece_length i) ->
  (20 * N.to_nat idx + 20 <= List.length (i_pieces i))%nat ->
  sha1 (sd_piece v idx) = firstn 20 (skipn (20 * N.to_nat idx) (i_pieces i)) ->
  (11 + 10 * N.to_nat (piece_count (lenN (sd_piece v idx)) 16384) <= fuel)%nat ->
  download_l serving (server_hears v) server_says sha1 p fuel [] newly pid ep i idx = Ret (Ok (sd_piece v idx)).
Proof. exact c82_piece. Qed.
Print Assumptions C82_piece.

(** C82: otherwise such a server, which does not answer requests for more than there is in a piece, never gives the piece, although it
    has it. *)
Theorem C82_unaligned : forall sha1 p fuel v pid ep i idx total,
  parse_socket_addr ep <> None -> get_total_length p i = Ret total ->
  (0 < i_piece_length i)%N -> (idx + 1 < piece_count total (i_piece_length i))%N -> (total + i_piece_length i <= 2 ^ 64)%N ->
  (idx < 2 ^ 32)%N -> (i_piece_length i < 2 ^ 32)%N -> (forall b, List.length (sha1 b) = 20%nat) -> List.length pid = 20%nat ->
  (i_piece_length i mod 16384 <> 0)%N ->
  sd_ih v = compute_info_hash sha1 i -> welcoming some_size v -> no_blocks v ->
  lenN (sd_piece v idx) = i_piece_length i ->
  (132 + 10 * N.to_nat (piece_count (lenN (sd_piece v idx)) 16384) <= fuel)%nat ->
  download_l serving (server_hears v) server_says sha1 p fuel [] newly pid ep i idx = Ret (Err (MEPieceDownloadFailure Idle)).
Proof. exact c82_unaligned. Qed.
Print Assumptions C82_unaligned.

(** C82: a server that states the size of its metadata and the number under which it wants to be asked, and answers within nine attempts,
    gives the metadata. *)
Theorem C82_metadata : forall v, (0 < lenN (sd_metadata v))%N -> (lenN (sd_metadata v) < 2 ^ 64)%N -> (0 < sd_number v)%N ->
  welcoming (under_number (lenN (sd_metadata v)) (sd_number v)) v -> no_metadata v ->
  forall fuel pid ep i, parse_socket_addr ep <> None -> List.length (sd_ih v) = 20%nat -> List.length pid = 20%nat ->
  info_from_bytes (sd_metadata v) = Ret (Ok i) ->
  (11 + 10 * N.to_nat (piece_count (lenN (sd_metadata v)) 16384) <= fuel)%nat ->
  get_info_l serving (server_hears v) server_says fuel [] newly pid (sd_ih v) ep = Ret (Ok i).
Proof. exact c82_metadata. Qed.
Print Assumptions C82_metadata.

(** ** Examples *)

(** A torrent of 16389 bytes in pieces of [plen] bytes, and a server that takes [d] attempts to answer; the network cuts
    messages as [c] says. *)
Definition xl_content : bytes := repeat 7%N (N.to_nat 16384) ++ [1; 2; 3; 4; 5]%N.
Definition xl_piece (plen k : N) : bytes := part xl_content (k * plen) plen.
Definition xl_info (plen : N) : info :=
  {| i_length := Some 16389%N; i_files := None; i_name := s2b "x"; i_piece_length := plen;
     i_pieces := flat_map (fun k => ex_sha1 (xl_piece plen (N.of_nat k))) (seq 0 (N.to_nat (piece_count 16389 plen))) |}.
Definition xl_metadata : bytes := s2b "d6:lengthi5e4:name1:x12:piece lengthi3e6:pieces4:abcde".
Definition xl_server (plen : N) (d : nat) (c : list (nat * nat)) : server :=
  {| sd_ih := compute_info_hash ex_sha1 (xl_info plen); sd_pid := repeat 8%N 20;
     sd_hello := [(2%nat, (5%N, [224]%N))]; sd_interested := [(3%nat, (1%N, []))];
     sd_extended := [(0%nat, extension_message 0 [(s2b "m", BDict [(s2b "ut_metadata", BInt 3)]); (s2b "metadata_size", BInt 54)] [])];
     sd_piece := xl_piece plen; sd_metadata := xl_metadata; sd_number := 3; sd_delay := fun _ => d; sd_cuts := fun _ => c |}.
Definition xl_download (plen : N) (d : nat) (c : list (nat * nat)) (idx : N) : outcome (result bytes manager_error) :=
  download_l serving (server_hears (xl_server plen d c)) server_says ex_sha1 Debug 200 [] newly (repeat 1%N 20) (s2b "10.0.0.1:6881") (xl_info plen) idx.

Example C82_welcoming : forall plen d c, (d <= 9)%nat -> gentle c ->
  welcoming (under_number 54 3) (xl_server plen d c) /\ welcoming some_size (xl_server plen d c) /\ no_blocks (xl_server plen d c) /\ no_metadata (xl_server plen d c).
Proof.
  intros plen d c D G.
  assert (NB : no_blocks (xl_server plen d c)).
  { intros q id body [E|[E|[E|[]]]]; injection E as <- <- <-; split; discriminate. }
  destruct (hello_states 54 3 ltac:(split; reflexivity) ltac:(reflexivity)) as (m & e & P & S & _ & NM).
  set (hello := extension_message 0 [(s2b "m", BDict [(s2b "ut_metadata", BInt 3)]); (s2b "metadata_size", BInt 54)] []) in *.
  assert (E3 : hm_get e (s2b "ut_metadata") = Some 3%N).
  { destruct P as (l & P). vm_compute in P. injection P as <-. vm_compute in S. injection S as <-. reflexivity. }
  assert (W : forall size : N -> hmap N -> Prop, size 54%N e -> welcoming size (xl_server plen d c)).
  { intros size Z. constructor.
    - reflexivity.
    - cbn. repeat constructor.
    - exists 3%nat, []. right. left. reflexivity.
    - exists 0%nat, hello, m, 54%N, e. split; [right; right; left; reflexivity|]. auto.
    - intros q r [E|[E|[E|[]]]]; injection E as <- <-; (split; [|reflexivity]); (split; [discriminate|]); split.
      + exists {| msg_id := 5; msg_length := 0; msg_content := CBitfield (bitfield_from_bytes [224%N]) |}, 0%N. reflexivity.
      + intros m' n e' (l & P') S'. cbn in P'. injection P' as <-. discriminate.
      + exists {| msg_id := 1; msg_length := 0; msg_content := CNothing |}, 0%N. reflexivity.
      + intros m' n e' (l & P') S'. cbn in P'. injection P' as <-. discriminate.
      + exists m. exact P.
      + intros m' n e' P' S'. destruct (parsed_unique _ _ _ P P') as [E _]. unfold states_size in *. rewrite <- E in S'. rewrite S in S'. injection S' as <- <-. exact Z.
    - intros r. exact D.
    - intros r. exact G. }
  split; [apply W; split; [reflexivity|exact E3]|]. split; [apply W; discriminate|]. split; [exact NB|].
  intros q r m' e' [E|[E|[E|[]]]] P' C; injection E as <- <-.
  - destruct P' as (l & P'). cbn in P'. injection P' as <-. discriminate.
  - destruct P' as (l & P'). cbn in P'. injection P' as <-. discriminate.
  - apply NM. destruct (parsed_unique _ _ _ P P') as [E _]. congruence.
Qed.

(** Two blocks, the second one short, whole or in segments; a server that takes one attempt more; pieces that end within a block; metadata. *)
Definition xl_gives (plen : N) (d : nat) (c : list (nat * nat)) (idx : N) : bool :=
  match xl_download plen d c idx with Ret (Ok b) => bytes_eqb b (xl_piece plen idx) | _ => false end.
Definition xl_idle (plen : N) (d : nat) (c : list (nat * nat)) (idx : N) : bool :=
  match xl_download plen d c idx with Ret (Err (MEPieceDownloadFailure Idle)) => true | _ => false end.
Example C82_example :
  xl_gives 32768 9 [] 0 = true /\ xl_idle 32768 10 [] 0 = true /\ xl_idle 16386 0 [] 0 = true /\ xl_gives 16386 0 [] 1 = true /\
  xl_gives 32768 9 (repeat (1460, 1) 11)%nat 0 = true /\ xl_gives 32768 9 [(5, 41)]%nat 0 = true.
Proof. vm_compute. auto 10. Qed.
Example C82_example_metadata :
  get_info_l serving (server_hears (xl_server 32768 9 [(40, 7)]%nat)) server_says 21 [] newly (repeat 1%N 20) (sd_ih (xl_server 32768 9 [(40, 7)]%nat)) (s2b "10.0.0.1:6881")
    = Ret (Ok {| i_length := Some 5%N; i_files := None; i_name := s2b "x"; i_piece_length := 3%N; i_pieces := s2b "abcd" |}).
Proof. vm_compute. reflexivity. Qed.

(** C82: it matters where messages are cut: a server gives a piece, but not if its messages are cut within the first five bytes and the
    rest comes a little later, nor if they are cut behind these and the rest comes more than 42 reads or peeks later. *)
Theorem C82_any_segments_refuted : exists sha1 v pid ep i, welcoming some_size v /\ no_blocks v /\
  let give w := download_l serving (server_hears w) server_says sha1 Debug 200 [] newly pid ep i 0 in
  give v = Ret (Ok (sd_piece v 0%N)) /\ give (recut v [(5, 41)]%nat) = Ret (Ok (sd_piece v 0%N)) /\
  give (recut v [(4, 4)]%nat) = Ret (Err MEPeerNotReady) /\ give (recut v [(5, 42)]%nat) = Ret (Err (MEPieceDownloadFailure Idle)).
Proof.
  assert (RECUT : forall c, recut (xl_server 32768 9 []) c = xl_server 32768 9 c) by reflexivity.
  assert (GIVES : forall c, xl_gives 32768 9 c 0 = true -> forall b, b = xl_piece 32768 0 ->
    download_l serving (server_hears (xl_server 32768 9 c)) server_says ex_sha1 Debug 200 [] newly (repeat 1%N 20) (s2b "10.0.0.1:6881") (xl_info 32768) 0 = Ret (Ok b)).
  { intros c. unfold xl_gives, xl_download. destruct (download_l _ _ _ _ _ _ _ _ _ _ _ _) as [[x|e]| |]; try discriminate.
    intros E b ->. apply ProofBase.bytes_eqb_eq in E. now rewrite E. }
  assert (FAILS : forall c e, xl_download 32768 9 c 0 = Ret (Err e) ->
    download_l serving (server_hears (xl_server 32768 9 c)) server_says ex_sha1 Debug 200 [] newly (repeat 1%N 20) (s2b "10.0.0.1:6881") (xl_info 32768) 0 = Ret (Err e)).
  { intros c e E. unfold xl_download in E. exact E. }
  exists ex_sha1, (xl_server 32768 9 []), (repeat 1%N 20), (s2b "10.0.0.1:6881"), (xl_info 32768).
  destruct (C82_welcoming 32768 9 []) as (_ & W & NB & _); [lia|split; cbn; lia|]. split; [exact W|]. split; [exact NB|].
  cbv beta zeta. rewrite !RECUT. destruct C82_example as (E1 & _ & _ & _ & _ & E2).
  split; [apply GIVES; [exact E1|reflexivity]|]. split; [apply GIVES; [exact E2|reflexivity]|].
  split; apply FAILS; vm_compute; reflexivity.
Qed.
Print Assumptions C82_any_segments_refuted.
