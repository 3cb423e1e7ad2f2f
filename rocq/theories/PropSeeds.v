(** PropSeeds: property C83 (the order of the requests, and torrents whose peers answer what they are asked) *)
From Coq Require Import Permutation Lia.
From Verif Require Import Base Utf8 ModelBencode ModelMessages ModelTorrent ModelWriter ModelTracker ModelStream ModelPeer ModelLive
  ModelActors ModelCache ModelMain ModelSha1 ProofBase SpecBencode SpecMessages SpecTorrent SpecStream SpecWriter SpecPieces SpecSystem SpecPeer
  SpecSession SpecLookup SpecMain ProofSha1 ProofMain PropPeer PropSystem PropLookup PropMain SpecWhole SpecForever ProofForever PropForever
  SpecLive ProofSession ProofLive SpecSeeds ProofSeeds.

(** C83: the pieces are requested in order, from the first to the last, and after them those whose download has failed, in the order in
    which that became known; nothing else is requested. *)
Theorem C83_order : forall sha1 p cwd ih d s i n, reached sha1 p cwd ih d s -> ta_info (sy_actor s) = Some i -> pieces_of p i n ->
  map rq_idx (requested (sy_trace s)) ++ waiting s = numbers n ++ failed_pieces (sy_trace s).
Proof. exact c83_order. Qed.
Print Assumptions C83_order.

(** C83: a torrent that downloads from nobody but servers that have everything, unchoke, state a metadata size and answer within nine
    attempts to read loses no worker, has no failed download, hands the right data to the writer, and requests each piece once. *)
Theorem C83_no_failures : forall sha1 p cwd d ops t files T, (forall b, List.length (sha1 b) = 20%nat) -> (forall n, pop_ok (ops n)) ->
  (forall n x i, torrent_at sha1 p cwd d ops t n = Some x -> ta_info (sy_actor x) = Some i -> describes sha1 i files T /\ well_shaped i T) ->
  (forall n, served sha1 p 11 T t (state_at sha1 p cwd d ops n) (ops n)) ->
  forall n x, torrent_at sha1 p cwd d ops t n = Some x ->
  sy_workers x = 5%nat /\ failed_so_far x = 0%N /\
  forall i, ta_info (sy_actor x) = Some i ->
    (forall r, In r (to_writer (sy_trace x)) -> rd_piece r = torrent_piece T (i_piece_length i) (rd_idx r)) /\
    map rq_idx (requested (sy_trace x)) ++ waiting x = numbers (piece_count (lenN T) (i_piece_length i)).
Proof. exact c83_once. Qed.
Print Assumptions C83_no_failures.

(** C83: so in every execution that goes on forever such a torrent, once it has requested something, and if it never stops with something
    left to do, is complete on the disk from some moment on; unless a peer of another torrent has sent wrong data with the right hash. *)
Theorem C83_eventually_complete : forall sha1 p cwd F T d ops t, (forall b, List.length (sha1 b) = 20%nat) -> (forall n, pop_ok (ops n)) ->
  (forall n, let s := state_at sha1 p cwd d ops n in
     apart (List.length (pr_torrents s)) F T /\ (forall u, (u < List.length (pr_torrents s))%nat -> disk_ready cwd (F u) d) /\ told sha1 F T s) ->
  (forall n x i, torrent_at sha1 p cwd d ops t n = Some x -> ta_info (sy_actor x) = Some i -> well_shaped i (T t)) ->
  (forall n, served sha1 p 11 (T t) t (state_at sha1 p cwd d ops n) (ops n)) ->
  never_stuck sha1 p cwd d ops t ->
  (exists n x, torrent_at sha1 p cwd d ops t n = Some x /\ requested (sy_trace x) <> []) ->
  exists n, forall m, (n <= m)%nat ->
    (exists u x i, u <> t /\ torrent_at sha1 p cwd d ops u m = Some x /\ ta_info (sy_actor x) = Some i /\ collision sha1 (i_piece_length i) (T u) x) \/
    complete_on cwd (F t) (T t) (pr_disk (state_at sha1 p cwd d ops m)).
Proof. exact c83_complete. Qed.
Print Assumptions C83_eventually_complete.

(** C83: without that reservation, if all torrents download from such servers. *)
Theorem C83_all_served : forall sha1 p cwd F T d ops t, (forall b, List.length (sha1 b) = 20%nat) -> (forall n, pop_ok (ops n)) ->
  (forall n, let s := state_at sha1 p cwd d ops n in
     apart (List.length (pr_torrents s)) F T /\ (forall u, (u < List.length (pr_torrents s))%nat -> disk_ready cwd (F u) d) /\ told sha1 F T s) ->
  (forall u n x i, torrent_at sha1 p cwd d ops u n = Some x -> ta_info (sy_actor x) = Some i -> well_shaped i (T u)) ->
  (forall u n, served sha1 p 11 (T u) u (state_at sha1 p cwd d ops n) (ops n)) ->
  never_stuck sha1 p cwd d ops t ->
  (exists n x, torrent_at sha1 p cwd d ops t n = Some x /\ requested (sy_trace x) <> []) ->
  exists n, forall m, (n <= m)%nat -> complete_on cwd (F t) (T t) (pr_disk (state_at sha1 p cwd d ops m)).
Proof. exact c83_all. Qed.
Print Assumptions C83_all_served.

(** C83: if pieces end within a block of 16 KiB, no piece but the last one ever arrives from such servers, however long it goes on. *)
Theorem C83_unaligned : forall sha1 p cwd d ops t files T, (forall b, List.length (sha1 b) = 20%nat) -> (forall n, pop_ok (ops n)) ->
  (forall n x i, torrent_at sha1 p cwd d ops t n = Some x -> ta_info (sy_actor x) = Some i -> describes sha1 i files T /\
     (i_piece_length i mod 16384 <> 0)%N /\ (i_piece_length i < 2 ^ 32)%N /\ (lenN T + i_piece_length i <= 2 ^ 64)%N /\
     (piece_count (lenN T) (i_piece_length i) <= 2 ^ 32)%N) ->
  (forall n, served sha1 p 132 T t (state_at sha1 p cwd d ops n) (ops n)) ->
  forall n x i idx, torrent_at sha1 p cwd d ops t n = Some x -> ta_info (sy_actor x) = Some i -> In idx (completed x) ->
    (idx + 1 = piece_count (lenN T) (i_piece_length i))%N.
Proof. exact c83_unaligned. Qed.
Print Assumptions C83_unaligned.

(** ** Examples *)

(** Seven pieces; the downloads of the second and of the first one fail. *)
Example C83_order_example :
  let refused k := OFinish k None [] 0 in
  let s := ex_run (map (fun k => OPeer (ex_ep (N.of_nat k))) (seq 0 11) ++ ex_handle (Some ex_meta7) :: repeat (ex_handle None) 10
             ++ [OStart; OStart; refused 1%nat; ex_handle None; refused 0%nat; ex_handle None]) in
  (map rq_idx (requested (sy_trace s)), waiting s, failed_pieces (sy_trace s)) = ([0; 1; 2; 3; 4; 5; 6], [1; 0], [1; 0])%N.
Proof. vm_compute. reflexivity. Qed.

(** A server with the content [data], in pieces of [plen] bytes. *)
Definition xs_hello : raw := extension_message 0 [(s2b "m", BDict [(s2b "ut_metadata", BInt 3)]); (s2b "metadata_size", BInt 54)] [].
Definition xs_server (h : bytes) (plen : N) (data : bytes) : server :=
  {| sd_ih := h; sd_pid := xm_pid; sd_hello := [(0%nat, (1%N, [])); (1%nat, xs_hello)]; sd_interested := []; sd_extended := [];
     sd_piece := fun k => torrent_piece data plen k; sd_metadata := []; sd_number := 1%N; sd_delay := fun _ => 4%nat;
     sd_cuts := fun _ => [(9, 2); (3, 0)]%nat |}.
Lemma xs_has_all : forall i data, has_all sha1 i data (xs_server (compute_info_hash sha1 i) (i_piece_length i) data).
Proof.
  intros i data. split; [reflexivity|]. split; [|split; [|reflexivity]].
  - destruct (hello_states 54 3 ltac:(split; reflexivity) ltac:(reflexivity)) as (m & e & P & S & _ & _). fold xs_hello in P.
    constructor.
    + reflexivity.
    + cbn. repeat constructor.
    + exists 0%nat, []. left. reflexivity.
    + exists 1%nat, xs_hello, m, 54%N, e. split; [right; left; reflexivity|]. auto.
    + intros q r [E|[E|[]]]; injection E as <- <-; (split; [|reflexivity]); (split; [discriminate|]); split.
      * exists {| msg_id := 1; msg_length := 0; msg_content := CNothing |}, 0%N. reflexivity.
      * intros m' n e' (l & P') S'. cbn in P'. injection P' as <-. discriminate.
      * exists m. exact P.
      * intros m' n e' P' S'. destruct (parsed_unique _ _ _ P P') as [E _]. unfold states_size in *. rewrite <- E in S'. rewrite S in S'. injection S' as <- <-. discriminate.
    + intros r. cbn. lia.
    + intros r. split; cbn; lia.
  - intros q id body [E|[E|[]]]; injection E as <- <- <-; split; discriminate.
Qed.

(** Whether the steps are as [served] says, checked one by one. *)
Definition xs_same (a b : outcome (result bytes manager_error)) : bool :=
  match a, b with
  | Ret (Ok x), Ret (Ok y) => bytes_eqb x y
  | Ret (Err (MEPieceDownloadFailure Idle)), Ret (Err (MEPieceDownloadFailure Idle)) => true
  | _, _ => false
  end.
Definition xs_step (time : nat) (v : server) (s : process) (o : pop) : bool :=
  match o with
  | PFinish u k net pid fuel =>
    match nth_error (pr_torrents s) u with
    | Some x =>
      match nth_error (sy_working x) k with
      | Some r => (List.length pid =? 20)%nat && (time + 10 * N.to_nat (piece_count (i_piece_length (rq_info r)) 16384) <=? fuel)%nat &&
          xs_same (download sha1 Debug fuel net pid (rq_endpoint r) (rq_info r) (rq_idx r))
            (download_l serving (server_hears v) server_says sha1 Debug fuel [] newly pid (rq_endpoint r) (rq_info r) (rq_idx r))
      | None => true
      end
    | None => true
    end
  | _ => true
  end.
Fixpoint xs_check (time : nat) (v : server) (s : process) (l : list pop) : bool :=
  match l with [] => true | o :: l => xs_step time v s o && xs_check time v (pr_step sha1 Debug xm_cwd s o) l end.
Lemma xs_checked : forall time v l n s, xs_check time v s l = true -> (n < List.length l)%nat ->
  xs_step time v (pr_run sha1 Debug xm_cwd s (firstn n l)) (nth n l (PStart 0)) = true.
Proof.
  intros time v. induction l as [|o l IH]; intros n s H L; [cbn in L; lia|]. cbn [xs_check] in H. apply andb_prop in H as [H1 H2].
  destruct n as [|n]; [exact H1|]. cbn [firstn nth]. cbn [List.length] in L. apply (IH n _ H2). lia.
Qed.
Lemma xs_served : forall time i data l, Forall pop_ok l ->
  (forall n t x j, torrent_at sha1 Debug xm_cwd xm_empty (followed_by l (fun _ => PStart 0)) t n = Some x -> ta_info (sy_actor x) = Some j -> t = 0%nat /\ j = i) ->
  xs_check time (xs_server (compute_info_hash sha1 i) (i_piece_length i) data) (process_init xm_empty) l = true ->
  forall u n, served sha1 Debug time data u (state_at sha1 Debug xm_cwd xm_empty (followed_by l (fun _ => PStart 0)) n) (followed_by l (fun _ => PStart 0) n).
Proof.
  intros time i data l OL SI C u n. destruct (Nat.lt_ge_cases n (List.length l)) as [L|L].
  2:{ unfold followed_by at 2. rewrite (proj2 (Nat.ltb_ge n _)) by lia. exact I. }
  pose proof (xs_checked time _ l n _ C L) as X. rewrite <- (followed_first _ _ _ _ l (fun _ => PStart 0)) in X by lia.
  assert (EO : followed_by l (fun _ => PStart 0) n = nth n l (PStart 0)) by (unfold followed_by; rewrite (proj2 (Nat.ltb_lt n _)) by lia; reflexivity).
  rewrite EO. destruct (nth n l (PStart 0)) as [| | | | | | |w k net pid fuel|]; try exact I. intros -> x r H Hr. cbn [xs_step] in X. rewrite H, Hr in X.
  destruct (working_known _ _ _ _ _ _ _ _ _ _ (state_started sha1 Debug xm_cwd xm_empty _ n (followed_ok l (fun _ => PStart 0) OL (fun _ => I))) H Hr) as (j & nn & EI & _ & RI & _).
  destruct (SI n u x j H EI) as [_ ->]. rewrite RI in *. apply andb_prop in X as [X X3]. apply andb_prop in X as [X1 X2].
  apply Nat.eqb_eq in X1. apply Nat.leb_le in X2. exists (xs_server (compute_info_hash sha1 i) (i_piece_length i) data).
  split; [apply xs_has_all|]. split; [auto|]. split; [auto|]. unfold xs_same in X3.
  destruct (download sha1 Debug fuel net pid (rq_endpoint r) i (rq_idx r)) as [[a|[| | |[]| | | |]]| |]; try discriminate X3;
    destruct (download_l _ _ _ _ _ _ _ _ _ _ _ _) as [[b|[| | |[]| | | |]]| |]; try discriminate X3; [|reflexivity]. apply bytes_eqb_eq in X3. subst. reflexivity.
Qed.

(** A torrent of one piece, and all the steps of its download; and then nothing happens any more. *)
Definition xs_data : bytes := [1; 2; 3; 4; 5]%N.
Definition xs_info : info :=
  {| i_length := Some 5%N; i_files := None; i_name := s2b "x"; i_piece_length := 16384%N;
     i_pieces := sha1 xs_data |}.
Definition xs_hash : bytes := compute_info_hash sha1 xs_info.
Definition xs_meta : bytes := enc_info xs_info.
Definition xs_list : list pop := xm_add xs_hash ++
  PHandle 0 0 1000 5 (Some (info_seed xs_hash xm_pid (lenN xs_meta) 3 [xs_meta])) xm_pid xm_same ::
  repeat (PHandle 0 0 0 0 None xm_pid xm_same) 10 ++
  [PStart 0; PFinish 0 0 (Some (seed xs_hash xm_pid 0 [xs_data])) xm_pid 21; PHandle 0 0 0 0 None xm_pid xm_same; PWrite 0].
Definition xs_files : list file := [{| f_path := [s2b "x"]; f_length := 5%N |}].
Definition xs_F (t : nat) : list file := xs_files.
Definition xs_T (t : nat) : bytes := xs_data.

Lemma xs_length : lenN xs_data = 5%N.
Proof. vm_compute. reflexivity. Qed.
Lemma xs_describes : describes sha1 xs_info xs_files xs_data.
Proof.
  assert (G : good_files xs_files).
  { split; [constructor; [exact xm_sane_x|constructor]|].
    intros i j f g HI HJ NE. destruct i as [|[|i]], j as [|[|j]]; try discriminate; congruence. }
  split; [apply SpecTorrent.co_single; reflexivity|]. split; [rewrite xs_length; reflexivity|]. split; [rewrite xs_length; reflexivity|]. split; [reflexivity|]. split; [exact G|].
  intros idx I. rewrite xs_length in I. cbn [xs_info i_piece_length i_pieces] in *.
  assert (D : forall m, List.length (sha1 m) = 20%nat) by (intros; apply digest_length).
  assert (C : idx = 0%N) by (change (piece_count 5 16384) with 1%N in I; lia). subst idx.
  change (20 * N.to_nat 0)%nat with 0%nat. rewrite skipn_O. rewrite firstn_all2 by (rewrite D; auto). reflexivity.
Qed.
Lemma xs_well_shaped : well_shaped xs_info xs_data.
Proof. split; [left; reflexivity|]. rewrite xs_length. split; [reflexivity|]. split; discriminate. Qed.

(** The description of torrent 0 at any moment, if nothing happens any more after the list. *)
Lemma xs_same_info : forall i F T l x, describes sha1 i (F 0%nat) (T 0%nat) -> Forall pop_ok l -> l <> [] -> forallb not_add (tl l) = true ->
  nth_error (pr_torrents (xm_run l)) 0 = Some x -> sy_queue x = [] -> ta_info (sy_actor x) = Some i ->
  forall n t y j, torrent_at sha1 Debug xm_cwd xm_empty (followed_by l (fun _ => PStart 0)) t n = Some y -> ta_info (sy_actor y) = Some j -> t = 0%nat /\ j = i.
Proof.
  intros i F T l x DE OL NL CH EX Q EI n.
  assert (SX : torrent_at sha1 Debug xm_cwd xm_empty (followed_by l (fun _ => PStart 0)) 0 (List.length l) = Some x).
  { unfold torrent_at. rewrite followed_first, firstn_all by lia. exact EX. }
  refine (proj2 (xf_told i F T l (fun _ => PStart 0) DE OL (fun _ => I) _ _ n)).
  - intros k. destruct l as [|o l]; [contradiction|]. apply followed_one; auto. intros k'. exact I.
  - intros k z HZ. destruct (idle_later sha1 Debug xm_cwd xm_empty l x SX Q k) as (D & E & _). rewrite HZ in E. injection E as ->. exact EI.
Qed.

(** The hypotheses of C83_all_served hold of this execution, and so does its conclusion. *)
Example C83_example : let ops := followed_by xs_list (fun _ => PStart 0) in
  (forall n, pop_ok (ops n)) /\
  (forall n, let s := state_at sha1 Debug xm_cwd xm_empty ops n in
     apart (List.length (pr_torrents s)) xs_F xs_T /\ (forall u, (u < List.length (pr_torrents s))%nat -> disk_ready xm_cwd (xs_F u) xm_empty) /\ told sha1 xs_F xs_T s) /\
  (forall u n x i, torrent_at sha1 Debug xm_cwd xm_empty ops u n = Some x -> ta_info (sy_actor x) = Some i -> well_shaped i (xs_T u)) /\
  (forall u n, served sha1 Debug 11 (xs_T u) u (state_at sha1 Debug xm_cwd xm_empty ops n) (ops n)) /\
  never_stuck sha1 Debug xm_cwd xm_empty ops 0 /\
  (exists n x, torrent_at sha1 Debug xm_cwd xm_empty ops 0 n = Some x /\ requested (sy_trace x) <> []) /\
  forall m, (31 <= m)%nat -> pr_disk (state_at sha1 Debug xm_cwd xm_empty ops m) [s2b "home"; s2b "x"] = Some (NFile xs_data).
Proof.
  cbn zeta.
  assert (E : match nth_error (pr_torrents (xm_run xs_list)) 0 with
    | Some x => (sy_mail x, sy_queue x, sy_working x, sy_writer x, ta_info (sy_actor x), match requested (sy_trace x) with [] => false | _ => true end)
    | None => ([], [], [], [], None, false) end = ([], [], [], [], Some xs_info, true)) by (vm_compute; reflexivity).
  destruct (nth_error (pr_torrents (xm_run xs_list)) 0) as [x|] eqn:EX; [|discriminate E]. injection E as M Q K W EI RQ.
  assert (Z : match nth_error (pr_torrents (xm_run (firstn (List.length xs_list - 1) xs_list))) 0 with
    | Some y => match sy_writer y with [] => false | _ => true end
    | None => false end = true) by (vm_compute; reflexivity).
  destruct (nth_error (pr_torrents (xm_run (firstn (List.length xs_list - 1) xs_list))) 0) as [y|] eqn:EY; [|discriminate Z].
  assert (NW : sy_writer y <> []) by (destruct (sy_writer y); [discriminate Z|discriminate]).
  assert (NR : requested (sy_trace x) <> []) by (destruct (requested (sy_trace x)); [discriminate RQ|discriminate]).
  assert (OL : Forall pop_ok xs_list) by ops_ok.
  assert (NL : xs_list <> []) by discriminate.
  assert (CH : forallb not_add (tl xs_list) = true) by (vm_compute; reflexivity).
  assert (G : xf_check xf_good (process_init xm_empty) xs_list = true) by (vm_compute; reflexivity).
  assert (SV : xs_check 11 (xs_server (compute_info_hash sha1 xs_info) (i_piece_length xs_info) xs_data) (process_init xm_empty) xs_list = true) by (vm_compute; reflexivity).
  assert (LE : List.length xs_list = 31%nat) by (vm_compute; reflexivity).
  assert (DX : pr_disk (xm_run xs_list) [s2b "home"; s2b "x"] = Some (NFile xs_data)).
  { assert (DB : match pr_disk (xm_run xs_list) [s2b "home"; s2b "x"] with Some (NFile b) => bytes_eqb b xs_data | _ => false end = true) by (vm_compute; reflexivity).
    destruct (pr_disk (xm_run xs_list) [s2b "home"; s2b "x"]) as [[|b]|]; try discriminate DB. apply bytes_eqb_eq in DB. rewrite DB. reflexivity. }
  assert (AP : forall n, apart n xs_F xs_T).
  { intros n. split; [intros t _; split; [apply xs_describes|intros f [<-|[]]; discriminate]|]. intros t u _ _. left. auto. }
  revert OL NL CH EX NR G EY LE DX SV. generalize xs_list. clear Z RQ. intros l OL NL CH EX NR G EY LE DX SV.
  pose proof (xs_same_info xs_info xs_F xs_T l x xs_describes OL NL CH EX Q EI) as SI.
  destruct (xf_idle xs_info xs_F xs_T l x y xs_describes AP ltac:(intros u f _; split; auto) OL NL CH EX (conj M (conj Q (conj K W))) EI NR G EY NW) as (H1 & H2 & H3 & H4 & H5 & H6).
  split; [exact H1|]. split; [exact H2|]. split.
  { intros u n z i HZ EZ. destruct (SI n u z i HZ EZ) as [_ ->]. exact xs_well_shaped. }
  split; [intros u; apply (xs_served 11 xs_info xs_data l OL SI SV)|]. split; [exact H3|]. split; [exact H5|].
  intros m L. rewrite H6 by (rewrite LE; exact L). exact DX.
Qed.

(** Two pieces of three and two bytes: the server answers no request for 16384 bytes of the first one, and gives the second one. *)
Definition xs_short : list pop := xf_begin ++
  [PStart 0; PStart 0;
   PFinish 0 0 (Some (seed (xm_hash (s2b "x") xm_a) xm_pid 0 [])) xm_pid 142;
   PFinish 0 0 (Some (seed (xm_hash (s2b "x") xm_a) xm_pid 1 [torrent_piece xm_a 3 1])) xm_pid 142;
   PHandle 0 0 0 0 None xm_pid xm_same; PHandle 0 0 0 0 None xm_pid xm_same; PStart 0; PWrite 0].
Example C83_example_unaligned : let ops := followed_by xs_short (fun _ => PStart 0) in
  (forall n, pop_ok (ops n)) /\
  (forall n x i, torrent_at sha1 Debug xm_cwd xm_empty ops 0 n = Some x -> ta_info (sy_actor x) = Some i -> describes sha1 i (xm_files (s2b "x")) xm_a /\
     (i_piece_length i mod 16384 <> 0)%N /\ (i_piece_length i < 2 ^ 32)%N /\ (lenN xm_a + i_piece_length i <= 2 ^ 64)%N /\
     (piece_count (lenN xm_a) (i_piece_length i) <= 2 ^ 32)%N) /\
  (forall n, served sha1 Debug 132 xm_a 0 (state_at sha1 Debug xm_cwd xm_empty ops n) (ops n)) /\
  option_map (fun x => (completed x, map rq_idx (requested (sy_trace x)))) (torrent_at sha1 Debug xm_cwd xm_empty ops 0 35) = Some ([1], [0; 1; 0])%N.
Proof.
  cbn zeta.
  assert (E : match nth_error (pr_torrents (xm_run xs_short)) 0 with
    | Some x => (sy_queue x, ta_info (sy_actor x), completed x, map rq_idx (requested (sy_trace x)))
    | None => ([], None, [], []) end = ([], Some (xm_info (s2b "x") xm_a), [1], [0; 1; 0])%N) by (vm_compute; reflexivity).
  destruct (nth_error (pr_torrents (xm_run xs_short)) 0) as [x|] eqn:EX; [|discriminate E]. injection E as Q EI CO RQ.
  assert (OL : Forall pop_ok xs_short) by ops_ok.
  assert (NL : xs_short <> []) by discriminate.
  assert (CH : forallb not_add (tl xs_short) = true) by (vm_compute; reflexivity).
  assert (SV : xs_check 132 (xs_server (compute_info_hash sha1 (xm_info (s2b "x") xm_a)) (i_piece_length (xm_info (s2b "x") xm_a)) xm_a) (process_init xm_empty) xs_short = true)
    by (vm_compute; reflexivity).
  assert (LE : List.length xs_short = 35%nat) by (vm_compute; reflexivity).
  revert OL NL CH EX LE SV. generalize xs_short. intros l OL NL CH EX LE SV.
  pose proof (xs_same_info (xm_info (s2b "x") xm_a) xf_F xf_T l x (xm_describes (s2b "x") xm_a xm_sane_x eq_refl) OL NL CH EX Q EI) as SI.
  split; [apply followed_ok; [exact OL|intros k; exact I]|]. split.
  { intros n z i HZ EZ. destruct (SI n 0%nat z i HZ EZ) as [_ ->]. split; [apply xm_describes; [exact xm_sane_x|reflexivity]|]. repeat split; discriminate. }
  split; [apply (xs_served 132 (xm_info (s2b "x") xm_a) xm_a l OL SI SV)|].
  unfold torrent_at. rewrite followed_first by lia. rewrite <- LE, firstn_all. unfold xm_run in EX. rewrite EX. cbn [option_map]. rewrite CO, RQ. reflexivity.
Qed.
