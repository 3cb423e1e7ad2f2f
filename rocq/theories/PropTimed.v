(** PropTimed: property C86 (how long a session takes with a peer at a distance) *)
From Verif Require Import Base ModelBencode ModelMessages ModelTorrent ModelTracker ModelStream ModelPeer ModelLive ModelClock ModelTimed
  SpecBencode SpecTorrent SpecMessages SpecStream SpecWriter SpecPieces SpecPeer SpecSession SpecLive SpecTimed PropPeer PropSystem
  ProofSession ProofLive ProofAnswers ProofTimed ProofFar.

(** C86: with the time that passes, too, a session with a remote end is a session with some socket on which things arrive as a schedule
    says. *)
Theorem C86_schedules : forall (R : Type) (hear : N -> R -> bytes -> list (N * tick) * R),
  (forall sha1 p fuel now ws r pid ep i idx, exists l, forall tail,
     ('(o, _) <- download_t R hear sha1 p fuel now ws r pid ep i idx ;; Ret o) = download sha1 p fuel (Some (scheduled ws (l ++ tail))) pid ep i idx) /\
  (forall fuel now ws r pid ih ep, exists l, forall tail,
     ('(o, _) <- get_info_t R hear fuel now ws r pid ih ep ;; Ret o) = get_info fuel (Some (scheduled ws (l ++ tail))) pid ih ep).
Proof. exact c86_schedules. Qed.
Print Assumptions C86_schedules.

(** C86: a server at a distance of at most a tenth of a second gives a piece after exactly this time: its opening, a tenth of a second in
    which the client waits for nothing, and then for every block a round trip and what the server takes for it, one after the other; if no
    block takes more than a second. If one does, the session fails a second after the client asked for it. *)
Theorem C86_piece : forall sha1 p fuel now rtt v pid ep i idx total,
  parse_socket_addr ep <> None -> get_total_length p i = Ret total ->
  (0 < i_piece_length i)%N -> (idx < piece_count total (i_piece_length i))%N -> (total + i_piece_length i <= 2 ^ 64)%N ->
  (idx < 2 ^ 32)%N -> (i_piece_length i < 2 ^ 32)%N -> (forall b, List.length (sha1 b) = 20%nat) -> List.length pid = 20%nat ->
  (i_piece_length i mod 16384 = 0 \/ idx + 1 = piece_count total (i_piece_length i))%N ->
  sd_ih v = compute_info_hash sha1 i -> near rtt some_size v ->
  let piece := sd_piece v idx in
  let blocks := piece_count (lenN piece) 16384 in
  let delay := fun n => sd_delay v (request_for idx (lenN piece) n) in
  lenN piece = N.min (i_piece_length i) (total - idx * i_piece_length i) ->
  (20 * N.to_nat idx + 20 <= List.length (i_pieces i))%nat ->
  sha1 piece = firstn 20 (skipn (20 * N.to_nat idx) (i_pieces i)) ->
  (1 + 10 * N.to_nat blocks <= fuel)%nat ->
  ((forall n, (n < blocks)%N -> (rtt + N.of_nat (delay n) <= 1000)%N) ->
   download_t serving (far rtt v) sha1 p fuel now [] newly pid ep i idx
     = Ret (Ok piece, ready_at rtt v now + 100 + one_by_one rtt delay (N.to_nat blocks))%N) /\
  (forall j, (j < blocks)%N -> (forall n, (n < j)%N -> (rtt + N.of_nat (delay n) <= 1000)%N) -> (1000 < rtt + N.of_nat (delay j))%N ->
   download_t serving (far rtt v) sha1 p fuel now [] newly pid ep i idx
     = Ret (Err (MEPieceDownloadFailure Idle), ready_at rtt v now + 100 + one_by_one rtt delay (N.to_nat j) + 1000)%N).
Proof. exact c86_piece. Qed.
Print Assumptions C86_piece.

(** C86: and likewise for metadata. *)
Theorem C86_metadata : forall fuel now rtt v pid ep i,
  parse_socket_addr ep <> None -> List.length (sd_ih v) = 20%nat -> List.length pid = 20%nat ->
  (0 < lenN (sd_metadata v) < 2 ^ 64)%N -> (0 < sd_number v)%N -> near rtt (under_number (lenN (sd_metadata v)) (sd_number v)) v ->
  info_from_bytes (sd_metadata v) = Ret (Ok i) ->
  let blocks := piece_count (lenN (sd_metadata v)) 16384 in
  let delay := fun k => sd_delay v (20%N, sd_number v :: benc (metadata_request k)) in
  (forall n, (n < blocks)%N -> (rtt + N.of_nat (delay n) <= 1000)%N) -> (1 + 10 * N.to_nat blocks <= fuel)%nat ->
  get_info_t serving (far rtt v) fuel now [] newly pid (sd_ih v) ep
    = Ret (Ok i, ready_at rtt v now + 100 + one_by_one rtt delay (N.to_nat blocks))%N.
Proof. exact c86_metadata. Qed.
Print Assumptions C86_metadata.

(** C86: so a piece never comes faster than a block in every round trip. *)
Theorem C86_rate : forall sha1 p fuel now rtt v pid ep i idx total,
  parse_socket_addr ep <> None -> get_total_length p i = Ret total ->
  (0 < i_piece_length i)%N -> (idx < piece_count total (i_piece_length i))%N -> (total + i_piece_length i <= 2 ^ 64)%N ->
  (idx < 2 ^ 32)%N -> (i_piece_length i < 2 ^ 32)%N -> (forall b, List.length (sha1 b) = 20%nat) -> List.length pid = 20%nat ->
  (i_piece_length i mod 16384 = 0 \/ idx + 1 = piece_count total (i_piece_length i))%N ->
  sd_ih v = compute_info_hash sha1 i -> near rtt some_size v ->
  let piece := sd_piece v idx in
  let blocks := piece_count (lenN piece) 16384 in
  lenN piece = N.min (i_piece_length i) (total - idx * i_piece_length i) ->
  (20 * N.to_nat idx + 20 <= List.length (i_pieces i))%nat ->
  sha1 piece = firstn 20 (skipn (20 * N.to_nat idx) (i_pieces i)) ->
  (1 + 10 * N.to_nat blocks <= fuel)%nat ->
  forall got t, download_t serving (far rtt v) sha1 p fuel now [] newly pid ep i idx = Ret (Ok got, t) -> (now + 100 + rtt * (1 + blocks) <= t)%N.
Proof. exact c86_rate. Qed.
Print Assumptions C86_rate.

(** C86: a server at a distance of more than a tenth of a second is of no use, whatever it sends: every session ends after a tenth of a
    second. *)
Theorem C86_distant : forall rtt v now r pid ep, (100 < rtt)%N -> parse_socket_addr ep <> None ->
  (forall sha1 p fuel i idx, download_t serving (far rtt v) sha1 p fuel now [] r pid ep i idx = Ret (Err MEHandshake, now + 100)%N) /\
  (forall fuel ih, get_info_t serving (far rtt v) fuel now [] r pid ih ep = Ret (Err MEHandshake, now + 100)%N).
Proof. exact c86_distant. Qed.
Print Assumptions C86_distant.

(** ** Examples *)

(** A torrent of one piece with 16389 bytes, and a server that takes [d] milliseconds for every block; it unchokes at the end of its
    opening, or one message earlier. *)
Definition xt_content : bytes := repeat 7%N (N.to_nat 16384) ++ [1; 2; 3; 4; 5]%N.
Definition xt_info : info :=
  {| i_length := Some 16389%N; i_files := None; i_name := s2b "x"; i_piece_length := 32768; i_pieces := ex_sha1 xt_content |}.
Definition xt_metadata : bytes := s2b "d6:lengthi5e4:name1:x12:piece lengthi3e6:pieces4:abcde".
Definition xt_hello : raw := extension_message 0 [(s2b "m", BDict [(s2b "ut_metadata", BInt 3)]); (s2b "metadata_size", BInt 54)] [].
Definition xt_server (d : nat) (last : bool) : server :=
  {| sd_ih := compute_info_hash ex_sha1 xt_info; sd_pid := repeat 8%N 20;
     sd_hello := (5%nat, (5%N, [224]%N)) :: (if last then [(0%nat, xt_hello)] else []);
     sd_interested := [(7%nat, (1%N, []))];
     sd_extended := if last then [] else [(9%nat, xt_hello)];
     sd_piece := fun _ => xt_content; sd_metadata := xt_metadata; sd_number := 3; sd_delay := fun _ => d; sd_cuts := fun _ => [] |}.

Example C86_near : forall rtt d last, (rtt <= 100)%N -> near rtt (under_number 54 3) (xt_server d last) /\ near rtt some_size (xt_server d last).
Proof.
  intros rtt d last RT.
  destruct (hello_states 54 3 ltac:(split; reflexivity) ltac:(reflexivity)) as (m & e & P & S & _ & NM). fold xt_hello in P.
  assert (E3 : hm_get e (s2b "ut_metadata") = Some 3%N).
  { destruct P as (l & P). vm_compute in P. injection P as <-. vm_compute in S. injection S as <-. reflexivity. }
  assert (P5 : forall m', parsed (5%N, [224%N]) m' -> states_size m' = None) by (intros m' (l & P'); cbn in P'; injection P' as <-; reflexivity).
  assert (P1 : forall m', parsed (1%N, []) m' -> states_size m' = None) by (intros m' (l & P'); cbn in P'; injection P' as <-; reflexivity).
  assert (B : forall size : N -> hmap N -> Prop, size 54%N e -> near rtt size (xt_server d last)).
  { intros size Z.
    assert (W5 : well_behaved size (5%N, [224%N]) /\ short_body [224%N]).
    { split; [|reflexivity]. split; [discriminate|]. split; [eexists; exists 0%N; reflexivity|]. intros m' n e' P' S'. rewrite (P5 _ P') in S'. discriminate. }
    assert (W1 : well_behaved size (1%N, []) /\ short_body []).
    { split; [|reflexivity]. split; [discriminate|]. split; [eexists; exists 0%N; reflexivity|]. intros m' n e' P' S'. rewrite (P1 _ P') in S'. discriminate. }
    assert (WH : well_behaved size xt_hello /\ short_body (snd xt_hello)).
    { split; [|reflexivity]. split; [discriminate|]. split; [exists m; exact P|].
      intros m' n e' P' S'. destruct (parsed_unique _ _ _ P P') as [E _]. unfold states_size in *. rewrite <- E in S'. rewrite S in S'. injection S' as <- <-. exact Z. }
    constructor.
    - exact RT.
    - reflexivity.
    - reflexivity.
    - intros t.
      assert (PC : forall x, (x <= 200)%N -> (piece_count x 100 <= 2)%N) by (intros x L; unfold piece_count; lia).
      destruct last; unfold opening_at, xt_server; cbn [sd_hello sd_interested sd_extended moments_of app tries].
      + pose proof (PC (t + N.of_nat 5 - t)%N ltac:(lia)). unfold read_by at 1. cbn [snd].
        set (u := N.max t (t + N.of_nat 5)). pose proof (PC (t + N.of_nat 5 + N.of_nat 0 - u)%N ltac:(unfold u; lia)).
        unfold read_by. unfold xt_hello at 1, extension_message. cbn [snd]. fold u. pose proof (PC (t + rtt + N.of_nat 7 - N.max u (t + N.of_nat 5 + N.of_nat 0))%N ltac:(unfold u; lia)). lia.
      + pose proof (PC (t + N.of_nat 5 - t)%N ltac:(lia)). unfold read_by. cbn [snd].
        set (u := N.max t (t + N.of_nat 5)). pose proof (PC (t + rtt + N.of_nat 7 - u)%N ltac:(unfold u; lia)).
        match goal with |- context [piece_count (t + rtt + N.of_nat 9 - ?w) 100] => pose proof (PC (t + rtt + N.of_nat 9 - w)%N ltac:(unfold u; lia)) end. lia.
    - exists 7%nat, []. destruct last; cbn; auto.
    - exists (if last then 0%nat else 9%nat), xt_hello, m, 54%N, e. split; [|auto]. destruct last; cbn; auto.
    - intros q r I. destruct last; destruct I as [E|[E|[E|[]]]]; injection E as <- <-; assumption.
    - intros a b E NB. destruct last; [left; intros q body I|right; intros q r m' n e' I PR].
      + unfold opening in E. cbn [xt_server sd_hello sd_interested sd_extended app] in E.
        destruct a as [|x1 [|x2 [|x3 a]]]; cbn [app] in E.
        * destruct I.
        * injection E as <- _. destruct I as [I|[]]. discriminate.
        * injection E as <- <- _. destruct I as [I|[I|[]]]; discriminate.
        * injection E as _ _ _ E. destruct a; [cbn [app] in E; congruence|discriminate].
      + unfold opening in E. cbn [xt_server sd_hello sd_interested sd_extended app] in E.
        assert (N5 : parsed r m' -> r = (5%N, [224%N]) \/ r = (1%N, []) -> states_size m' <> Some (n, e')).
        { intros PR' [->| ->]; [rewrite (P5 _ PR')|rewrite (P1 _ PR')]; discriminate. }
        apply (N5 PR).
        destruct a as [|x1 [|x2 [|x3 a]]]; cbn [app] in E.
        * destruct I.
        * injection E as <- _. destruct I as [I|[]]. injection I as _ <-. auto.
        * injection E as <- <- _. destruct I as [I|[I|[]]]; injection I as _ <-; auto.
        * injection E as _ _ _ E. destruct a; [cbn [app] in E; congruence|discriminate]. }
  split; apply B; [split; [reflexivity|exact E3]|discriminate].
Qed.

(** At 40 ms: the opening takes 40 + 40 + 7 ms, and 200 ms more if it ends with the unchoke (which has no body), or 2 ms more if it does
    not; then 100 ms are lost, and each of the two blocks takes 40 ms and the delay. A block may take a second, but not more; at 101 ms
    nothing comes any more. *)
Definition xt_download (rtt : N) (d : nat) (last : bool) : option (bool * N) :=
  match download_t serving (far rtt (xt_server d last)) ex_sha1 Debug 21 0 [] newly (repeat 1%N 20) (s2b "10.0.0.1:6881") xt_info 0 with
  | Ret (Ok b, t) => if bytes_eqb b xt_content then Some (true, t) else None
  | Ret (Err _, t) => Some (false, t)
  | _ => None
  end.
Example C86_example :
  xt_download 40 25 true = Some (true, 40 + 40 + 7 + 200 + 100 + (40 + 25) + (40 + 25))%N /\
  xt_download 40 25 false = Some (true, 40 + 40 + 9 + 100 + (40 + 25) + (40 + 25))%N /\
  xt_download 40 960 false = Some (true, 40 + 40 + 9 + 100 + 1000 + 1000)%N /\
  xt_download 40 961 false = Some (false, 40 + 40 + 9 + 100 + 1000)%N /\
  xt_download 100 0 false = Some (true, 100 + 100 + 9 + 100 + 100 + 100)%N /\
  xt_download 101 0 false = Some (false, 100)%N.
Proof. vm_compute. auto 10. Qed.
Example C86_ready : forall now, ready_at 40 (xt_server 25 true) now = (now + 287)%N /\ ready_at 40 (xt_server 25 false) now = (now + 89)%N.
Proof. intros now. cbn. unfold read_by. cbn. lia. Qed.
Example C86_example_metadata :
  get_info_t serving (far 40 (xt_server 25 false)) 11 0 [] newly (repeat 1%N 20) (sd_ih (xt_server 25 false)) (s2b "10.0.0.1:6881")
    = Ret (Ok {| i_length := Some 5%N; i_files := None; i_name := s2b "x"; i_piece_length := 3%N; i_pieces := s2b "abcd" |}, 40 + 40 + 9 + 100 + 40 + 25)%N.
Proof. vm_compute. reflexivity. Qed.
