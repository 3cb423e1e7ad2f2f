(** PropLink: property C84 (from the link to the last byte in every fair execution) *)
From Coq Require Import Permutation Lia.
From Verif Require Import Base Utf8 ModelBencode ModelMessages ModelTorrent ModelWriter ModelTracker ModelStream ModelPeer ModelLive
  ModelActors ModelCache ModelMain ModelSha1 ProofBase SpecBencode SpecMessages SpecTorrent SpecStream SpecWriter SpecPieces SpecSystem SpecPeer
  SpecSession SpecLookup SpecCache SpecMain ProofSha1 ProofMain PropPeer PropSystem PropLookup PropMain SpecWhole SpecForever ProofForever PropForever
  SpecLive ProofSession ProofLive SpecSeeds ProofSeeds PropSeeds SpecLink ProofLink ProofBegin.

(** C84: if nothing of the interface and of the trackers [ks] is left lying about, each of these trackers is asked for each torrent,
    and exactly once. *)
Theorem C84_asked : forall sha1 p cwd d ops, (forall n, pop_ok (ops n)) ->
  forall ks k t n0, (forall n, never_full (ops n)) -> attended sha1 p cwd d ops ks -> In k ks -> (k < List.length tracker_urls)%nat ->
  (t < List.length (pr_torrents (state_at sha1 p cwd d ops n0)))%nat ->
  exists n, (n0 <= n)%nat /\ forall m, (n <= m)%nat -> List.length (between k t (looked_up sha1 p cwd d ops m)) = 1%nat.
Proof. exact c84_asked. Qed.
Print Assumptions C84_asked.

(** ... and from some moment on, every reachable peer of every one of their answers has been reported to the torrent. *)
Theorem C84_reported : forall sha1 p cwd d ops, (forall n, pop_ok (ops n)) ->
  forall ks t c n0, (forall n, never_full (ops n)) -> (forall n, reachability c (ops n)) -> NoDup ks ->
  (forall k, In k ks -> (k < List.length tracker_urls)%nat) -> attended sha1 p cwd d ops ks ->
  (t < List.length (pr_torrents (state_at sha1 p cwd d ops n0)))%nat ->
  exists n, (n0 <= n)%nat /\ forall m, (n <= m)%nat ->
    (forall k, In k ks -> List.length (between k t (looked_up sha1 p cwd d ops m)) = 1%nat) /\
    forall x, torrent_at sha1 p cwd d ops t m = Some x -> sy_dead x = false ->
    exists rest, Permutation (reported x)
      (map endpoint (filter (fun e => is_reachable c (endpoint e)) (peers_for t (by_trackers ks (looked_up sha1 p cwd d ops m)))) ++ rest).
Proof. exact c84_reported. Qed.
Print Assumptions C84_reported.

(** If the links are those of properly made torrents, and every peer that is asked for a description has it, then at every moment every
    torrent is alive and has no description or the right one, and so has the disk. *)
Theorem C84_description : forall sha1 p cwd I F T d ops, (forall n, pop_ok (ops n)) ->
  (forall b, List.length (sha1 b) = 20%nat /\ octets (sha1 b)) -> proper_links sha1 p cwd I F T d ops ->
  (forall u n, introduced (I u) u (state_at sha1 p cwd d ops n) (ops n)) ->
  forall n, (forall u, description_ok cwd (sha1 (benc (info_value (I u)))) (I u) (pr_disk (state_at sha1 p cwd d ops n))) /\
    (forall u x, torrent_at sha1 p cwd d ops u n = Some x -> sy_dead x = false /\ forall j, ta_info (sy_actor x) = Some j -> j = I u).
Proof. exact c84_description. Qed.
Print Assumptions C84_description.

(** If moreover the trackers [ks] name more than ten reachable peers of a torrent, then it gets its description, and requests pieces if it
    has any. *)
Theorem C84_begins : forall sha1 p cwd I F T d ops, (forall n, pop_ok (ops n)) ->
  (forall b, List.length (sha1 b) = 20%nat /\ octets (sha1 b)) -> proper_links sha1 p cwd I F T d ops ->
  (forall u n, introduced (I u) u (state_at sha1 p cwd d ops n) (ops n)) ->
  (forall u n, served sha1 p 11 (T u) u (state_at sha1 p cwd d ops n) (ops n)) ->
  forall c, (forall n, never_full (ops n)) -> (forall n, reachability c (ops n)) ->
  forall ks, NoDup ks -> (forall k, In k ks -> (k < List.length tracker_urls)%nat) -> attended sha1 p cwd d ops ks ->
  forall t q n0, never_stuck sha1 p cwd d ops t -> (t < List.length (pr_torrents (state_at sha1 p cwd d ops n0)))%nat ->
  (forall n x, In x (looked_up sha1 p cwd d ops n) -> In (ld_tracker x) ks -> ld_torrent x = t ->
     (q (ld_tracker x) <= reachable_count c (answer_peers x))%nat) -> (10 < list_sum (map q ks))%nat ->
  exists n x, (n0 <= n)%nat /\ torrent_at sha1 p cwd d ops t n = Some x /\ at_rest x /\ ta_info (sy_actor x) = Some (I t) /\
    (T t <> [] -> requested (sy_trace x) <> []).
Proof. exact c84_begins. Qed.
Print Assumptions C84_begins.

(** ... and from some moment on, all its files are complete on the disk. *)
Theorem C84_from_link : forall sha1 p cwd I F T d ops, (forall n, pop_ok (ops n)) ->
  (forall b, List.length (sha1 b) = 20%nat /\ octets (sha1 b)) -> proper_links sha1 p cwd I F T d ops ->
  (forall u n, introduced (I u) u (state_at sha1 p cwd d ops n) (ops n)) ->
  (forall u n, served sha1 p 11 (T u) u (state_at sha1 p cwd d ops n) (ops n)) ->
  forall c, (forall n, never_full (ops n)) -> (forall n, reachability c (ops n)) ->
  forall ks, NoDup ks -> (forall k, In k ks -> (k < List.length tracker_urls)%nat) -> attended sha1 p cwd d ops ks ->
  forall t q n0, never_stuck sha1 p cwd d ops t -> (t < List.length (pr_torrents (state_at sha1 p cwd d ops n0)))%nat ->
  (forall n x, In x (looked_up sha1 p cwd d ops n) -> In (ld_tracker x) ks -> ld_torrent x = t ->
     (q (ld_tracker x) <= reachable_count c (answer_peers x))%nat) -> (10 < list_sum (map q ks))%nat ->
  exists n, forall m, (n <= m)%nat -> complete_on cwd (F t) (T t) (pr_disk (state_at sha1 p cwd d ops m)).
Proof. exact c84_from_link. Qed.
Print Assumptions C84_from_link.

(** ** An example: the link of a torrent of one piece is posted, tracker 0 names eleven peers, and they answer. *)
Definition xk_hash : bytes := sha1 (benc (info_value xs_info)).
Definition xk_list : list pop := xm_add xk_hash ++
  PHandle 0 0 1000 21 (Some (info_seed xk_hash xm_pid (lenN xs_meta) 3 [xs_meta])) xm_pid xm_same ::
  repeat (PHandle 0 0 0 0 None xm_pid xm_same) 10 ++
  [PStart 0; PFinish 0 0 (Some (seed xk_hash xm_pid 0 [xs_data])) xm_pid 21; PHandle 0 0 0 0 None xm_pid xm_same; PWrite 0].
Definition xk_ops : nat -> pop := followed_by xk_list (fun _ => PStart 0).

(** A server that has the description. *)
Lemma xk_size : lenN (benc (info_value xs_info)) = 75%N.
Proof. vm_compute. reflexivity. Qed.
Definition xk_hello : raw := extension_message 0 [(s2b "m", BDict [(s2b "ut_metadata", BInt 3)]); (s2b "metadata_size", BInt 75)] [].
Definition xk_server : server :=
  {| sd_ih := xk_hash; sd_pid := xm_pid; sd_hello := [(0%nat, (1%N, [])); (1%nat, xk_hello)]; sd_interested := []; sd_extended := [];
     sd_piece := fun _ => []; sd_metadata := benc (info_value xs_info); sd_number := 3; sd_delay := fun _ => 4%nat;
     sd_cuts := fun _ => [(20, 5); (40, 1)]%nat |}.
Lemma xk_has : has_description xk_hash xs_info xk_server.
Proof.
  split; [reflexivity|]. split; [reflexivity|]. split; [reflexivity|]. change (sd_metadata xk_server) with (benc (info_value xs_info)). rewrite xk_size.
  destruct (hello_states 75 3 ltac:(split; reflexivity) ltac:(reflexivity)) as (m & e & P & S & _ & NM). fold xk_hello in P.
  assert (E3 : hm_get e (s2b "ut_metadata") = Some 3%N).
  { destruct P as (l & P). vm_compute in P. injection P as <-. vm_compute in S. injection S as <-. reflexivity. }
  assert (HE : forall q r, In (q, r) (opening xk_server) -> (q, r) = (0%nat, (1%N, [])) \/ (q, r) = (1%nat, xk_hello)).
  { intros q r [E|[E|[]]]; auto. }
  split.
  - constructor.
    + reflexivity.
    + vm_compute. repeat constructor.
    + exists 0%nat, []. left. reflexivity.
    + exists 1%nat, xk_hello, m, 75%N, e. split; [right; left; reflexivity|]. auto.
    + intros q r IR. apply HE in IR as [E|E]; injection E as -> ->; (split; [|reflexivity]); (split; [discriminate|]); split.
      * exists {| msg_id := 1; msg_length := 0; msg_content := CNothing |}, 0%N. reflexivity.
      * intros m' n e' (l & P') S'. cbn in P'. injection P' as <-. discriminate.
      * exists m. exact P.
      * intros m' n e' P' S'. destruct (parsed_unique _ _ _ P P') as [E _]. unfold states_size in *. rewrite <- E in S'. rewrite S in S'. injection S' as <- <-.
        split; [reflexivity|exact E3].
    + intros r. change (sd_delay xk_server r) with 4%nat. lia.
    + intros r. change (sd_cuts xk_server r) with [(20, 5); (40, 1)]%nat. split; cbn; lia.
  - intros q r m' e' IR P' C. apply HE in IR as [E|E]; injection E as -> ->.
    + destruct P' as (l & P'). cbn in P'. injection P' as <-. discriminate.
    + apply NM. destruct (parsed_unique _ _ _ P P') as [E _]. congruence.
Qed.

(** Whether the steps are as [introduced] says, checked one by one. *)
Definition xk_is (i j : info) : bool :=
  match i_length i, i_length j, i_files i, i_files j with
  | Some a, Some b, None, None => (a =? b)%N && bytes_eqb (i_name i) (i_name j) && (i_piece_length i =? i_piece_length j)%N && bytes_eqb (i_pieces i) (i_pieces j)
  | _, _, _, _ => false
  end.
Lemma xk_is_eq : forall i j, xk_is i j = true -> i = j.
Proof.
  intros i j H. unfold xk_is in H. destruct i, j. cbn [ModelTorrent.i_length ModelTorrent.i_files ModelTorrent.i_name ModelTorrent.i_piece_length ModelTorrent.i_pieces] in H.
  repeat match type of H with match ?o with Some _ => _ | None => _ end = true => destruct o; try discriminate H end.
  apply andb_prop in H as [H H4]. apply andb_prop in H as [H H3]. apply andb_prop in H as [H1 H2].
  apply N.eqb_eq in H1, H3. apply bytes_eqb_eq in H2, H4. congruence.
Qed.
Definition xk_gives (r : outcome (result info manager_error)) : bool := match r with Ret (Ok j) => xk_is j xs_info | _ => false end.
Definition xk_step (s : process) (o : pop) : bool :=
  match o with
  | PHandle u k accept fuel net pid _ =>
    match nth_error (pr_torrents s) u with
    | Some x =>
      match ta_info (sy_actor x), nth_error (sy_mail x) k with
      | None, Some (PeerFound ep) => bytes_eqb (ta_info_hash (sy_actor x)) xk_hash && (List.length pid =? 20)%nat && (21 <=? fuel)%nat && (141 <=? accept)%nat &&
          xk_gives (get_info fuel net pid xk_hash ep) &&
          xk_gives (get_info_l serving (server_hears xk_server) server_says fuel [] newly pid xk_hash ep)
      | _, _ => true
      end
    | None => true
    end
  | _ => true
  end.
Fixpoint xk_check (P : process -> pop -> bool) (s : process) (l : list pop) : bool :=
  match l with [] => true | o :: l => P s o && xk_check P (pr_step sha1 Debug xm_cwd s o) l end.
Lemma xk_checked : forall P l n s, xk_check P s l = true -> (n < List.length l)%nat -> P (pr_run sha1 Debug xm_cwd s (firstn n l)) (nth n l (PStart 0)) = true.
Proof.
  intros P. induction l as [|o l IH]; intros n s H L; [cbn in L; lia|]. cbn [xk_check] in H. apply andb_prop in H as [H1 H2].
  destruct n as [|n]; [exact H1|]. cbn [firstn nth]. cbn [List.length] in L. apply (IH n _ H2). lia.
Qed.
Lemma xk_saved_size : List.length (js_info xs_info) = 141%nat.
Proof. vm_compute. reflexivity. Qed.
Lemma xk_introduced : forall l, xk_check xk_step (process_init xm_empty) l = true ->
  forall u n, introduced xs_info u (state_at sha1 Debug xm_cwd xm_empty (followed_by l (fun _ => PStart 0)) n) (followed_by l (fun _ => PStart 0) n).
Proof.
  intros l C u n. destruct (Nat.lt_ge_cases n (List.length l)) as [L|L].
  2:{ unfold followed_by at 2. rewrite (proj2 (Nat.ltb_ge n _)) by lia. exact I. }
  pose proof (xk_checked xk_step l n _ C L) as X. rewrite <- (followed_first _ _ _ _ l (fun _ => PStart 0)) in X by lia.
  assert (EO : followed_by l (fun _ => PStart 0) n = nth n l (PStart 0)) by (unfold followed_by; rewrite (proj2 (Nat.ltb_lt n _)) by lia; reflexivity).
  rewrite EO. destruct (nth n l (PStart 0)) as [| | | | |w k accept fuel net pid sh| | |]; try exact I. intros -> x ep H EI Hm. cbn [xk_step] in X. rewrite H, EI, Hm in X.
  apply andb_prop in X as [X X6]. apply andb_prop in X as [X X5]. apply andb_prop in X as [X X4]. apply andb_prop in X as [X X3]. apply andb_prop in X as [X1 X2].
  apply bytes_eqb_eq in X1. apply Nat.eqb_eq in X2. apply Nat.leb_le in X3, X4. cbn zeta. rewrite X1.
  exists xk_server. split; [exact xk_has|]. split; [exact X2|]. rewrite xk_size, xk_saved_size. split; [exact X3|]. split; [exact X4|].
  unfold xk_gives in *. destruct (get_info fuel net pid xk_hash ep) as [[j|]| |]; try discriminate X5. destruct (get_info_l _ _ _ _ _ _ _ _ _) as [[j'|]| |]; try discriminate X6.
  rewrite (xk_is_eq _ _ X5), (xk_is_eq _ _ X6). reflexivity.
Qed.

(** After the list, nothing of the trackers changes. *)
Lemma xk_tail : forall l k, pr_interface (state_at sha1 Debug xm_cwd xm_empty (followed_by l (fun _ => PStart 0)) (List.length l + k)) = pr_interface (xm_run l) /\
  pr_trackers (state_at sha1 Debug xm_cwd xm_empty (followed_by l (fun _ => PStart 0)) (List.length l + k)) = pr_trackers (xm_run l).
Proof.
  intros l. induction k as [|k [IH1 IH2]].
  - rewrite Nat.add_0_r, followed_first, firstn_all by lia. split; reflexivity.
  - rewrite Nat.add_succ_r, state_S. unfold followed_by at 2 4. rewrite (proj2 (Nat.ltb_ge (List.length l + k) _)) by lia. cbn [pr_step]. unfold torrent_step.
    destruct (nth_error _ 0) as [x|]; cbn [pr_interface pr_trackers]; auto.
Qed.
Fixpoint xk_alive (s : process) (l : list pop) : bool :=
  match nth_error (pr_trackers s) 0 with Some x => tk_alive x | None => false end &&
  match l with [] => true | o :: l => xk_alive (pr_step sha1 Debug xm_cwd s o) l end.
Lemma xk_alive_at : forall l n s, xk_alive s l = true -> (n <= List.length l)%nat ->
  forall x, nth_error (pr_trackers (pr_run sha1 Debug xm_cwd s (firstn n l))) 0 = Some x -> tk_alive x = true.
Proof.
  induction l as [|o l IH]; intros n s H L x HX; cbn [xk_alive] in H; apply andb_prop in H as [H1 H2].
  - rewrite firstn_nil in HX. change (pr_run sha1 Debug xm_cwd s []) with s in HX. rewrite HX in H1. exact H1.
  - destruct n as [|n]; [change (pr_run sha1 Debug xm_cwd s (firstn 0 (o :: l))) with s in HX; rewrite HX in H1; exact H1|].
    cbn [List.length] in L. apply (IH n _ H2); [lia|]. exact HX.
Qed.
Lemma xk_attended : forall l, xk_alive (process_init xm_empty) l = true -> pr_interface (xm_run l) = [] ->
  match nth_error (pr_trackers (xm_run l)) 0 with Some x => tk_mail x = [] /\ tk_jobs x = [] | None => False end ->
  attended sha1 Debug xm_cwd xm_empty (followed_by l (fun _ => PStart 0)) [0%nat].
Proof.
  intros l AL EI ET. split.
  - intros n r _. exists (List.length l + n)%nat. split; [lia|]. destruct (xk_tail l n) as [-> _]. rewrite EI. auto.
  - intros k n x [<-|[]] HX. destruct (nth_error (pr_trackers (xm_run l)) 0) as [y|] eqn:EY; [|contradiction]. destruct ET as [EM EJ].
    split; [|split].
    + destruct (Nat.le_gt_cases n (List.length l)) as [L|L].
      * rewrite followed_first in HX by exact L. exact (xk_alive_at l n _ AL L x HX).
      * replace n with (List.length l + (n - List.length l))%nat in HX by lia. rewrite (proj2 (xk_tail l _)) in HX. rewrite EY in HX. injection HX as <-.
        apply (xk_alive_at l (List.length l) _ AL (le_n _)). rewrite firstn_all. exact EY.
    + intros r _. exists (List.length l + n)%nat, y. split; [lia|]. rewrite (proj2 (xk_tail l n)), EM. auto.
    + intros j _. exists (List.length l + n)%nat, y. split; [lia|]. rewrite (proj2 (xk_tail l n)), EJ. auto.
Qed.

(** Whether every answer names eleven reachable peers. *)
Definition xk_answer (s : process) (o : pop) : bool := forallb (fun x => 11 <=? reachable_count (fun _ => true) (answer_peers x))%nat (lookup_at s o).
Lemma xk_answers : forall l, xk_check xk_answer (process_init xm_empty) l = true ->
  forall n x, In x (looked_up sha1 Debug xm_cwd xm_empty (followed_by l (fun _ => PStart 0)) n) -> (11 <= reachable_count (fun _ => true) (answer_peers x))%nat.
Proof.
  intros l C n x. induction n as [|n IH]; [intros []|]. rewrite done_S. intros IX. apply in_app_or in IX as [IX|IX]; [auto|].
  destruct (Nat.lt_ge_cases n (List.length l)) as [L|L].
  2:{ unfold followed_by at 2 in IX. rewrite (proj2 (Nat.ltb_ge n _)) in IX by lia. destruct IX. }
  pose proof (xk_checked xk_answer l n _ C L) as X. rewrite <- (followed_first _ _ _ _ l (fun _ => PStart 0)) in X by lia.
  assert (EO : followed_by l (fun _ => PStart 0) n = nth n l (PStart 0)) by (unfold followed_by; rewrite (proj2 (Nat.ltb_lt n _)) by lia; reflexivity).
  rewrite EO in IX. unfold xk_answer in X. rewrite forallb_forall in X. apply Nat.leb_le. exact (X x IX).
Qed.
Lemma xk_every : forall (P : pop -> Prop) l, Forall P l -> P (PStart 0) -> forall n, P (followed_by l (fun _ => PStart 0) n).
Proof.
  intros P l F H n. unfold followed_by. destruct (n <? List.length l)%nat eqn:E; [|auto].
  rewrite Forall_forall in F. apply F. apply nth_In. apply Nat.ltb_lt. auto.
Qed.

Lemma xk_made : publishable sha1 xs_info xs_files xs_data.
Proof.
  constructor.
  - split; [|split; [|split; [|split; [|split]]]].
    + intros fs E. discriminate E.
    + intros n E. injection E as <-. reflexivity.
    + repeat constructor; discriminate.
    + reflexivity.
    + vm_compute. discriminate.
    + vm_compute. reflexivity.
  - vm_compute. repeat constructor.
  - exact xs_describes.
  - discriminate.
  - reflexivity.
  - discriminate.
  - rewrite xk_size. reflexivity.
  - intros f [<-|[]]; discriminate.
Qed.
Lemma xk_accepted : Forall (fun o => forall h, In h (accepted Debug [o]) -> h = xk_hash) xk_list.
Proof.
  change xk_list with (PAdd (xm_link xk_hash) false :: tl xk_list). constructor.
  - assert (E : accepted Debug [PAdd (xm_link xk_hash) false] = [xk_hash]) by (vm_compute; reflexivity). rewrite E. intros h [<-|[]]. reflexivity.
  - apply Forall_forall. intros o IO. assert (CH : forallb not_add (tl xk_list) = true) by (vm_compute; reflexivity).
    rewrite forallb_forall in CH. specialize (CH o IO). intros h IH. destruct o; try discriminate CH; destruct IH.
Qed.
Lemma xk_hashes : forall ops h, (forall n h, In h (accepted Debug [ops n]) -> h = xk_hash) -> forall n, In h (accepted Debug (map ops (seq 0 n))) -> h = xk_hash.
Proof.
  intros ops h H n. induction n as [|n IH]; [intros []|]. rewrite seq_S, map_app, accepted_app. intros IH'. apply in_app_or in IH' as [X|X]; [auto|]. exact (H n h X).
Qed.
Lemma xk_apart : forall n, apart n xs_F xs_T.
Proof. intros n. split; [intros t _; split; [apply xs_describes|intros f [<-|[]]; discriminate]|]. intros t u _ _. left. auto. Qed.
Lemma xk_ready : forall u, disk_ready xm_cwd (xs_F u) xm_empty.
Proof. intros u f _. split; auto. Qed.
Lemma xk_proper : proper_links sha1 Debug xm_cwd (fun _ => xs_info) xs_F xs_T xm_empty xk_ops.
Proof.
  constructor.
  - intros n t h H. apply nth_error_In in H. revert H. apply xk_hashes. unfold xk_ops. apply (xk_every _ _ xk_accepted). intros h' [].
  - reflexivity.
  - intros t. exact xk_made.
  - intros t. left. reflexivity.
  - intros n. apply xk_apart.
  - exact xk_ready.
  - intros t. split; left; reflexivity.
Qed.

(** All the hypotheses of C84_from_link hold of this execution, and so does its conclusion. *)
Example C84_example :
  (forall n, pop_ok (xk_ops n)) /\ (forall b, List.length (sha1 b) = 20%nat /\ octets (sha1 b)) /\
  proper_links sha1 Debug xm_cwd (fun _ => xs_info) xs_F xs_T xm_empty xk_ops /\
  (forall u n, introduced xs_info u (state_at sha1 Debug xm_cwd xm_empty xk_ops n) (xk_ops n)) /\
  (forall u n, served sha1 Debug 11 (xs_T u) u (state_at sha1 Debug xm_cwd xm_empty xk_ops n) (xk_ops n)) /\
  (forall n, never_full (xk_ops n)) /\ (forall n, reachability (fun _ => true) (xk_ops n)) /\
  attended sha1 Debug xm_cwd xm_empty xk_ops [0%nat] /\ never_stuck sha1 Debug xm_cwd xm_empty xk_ops 0 /\
  List.length (pr_torrents (state_at sha1 Debug xm_cwd xm_empty xk_ops 1)) = 1%nat /\
  (forall n x, In x (looked_up sha1 Debug xm_cwd xm_empty xk_ops n) -> (11 <= reachable_count (fun _ => true) (answer_peers x))%nat) /\
  forall m, (31 <= m)%nat -> pr_disk (state_at sha1 Debug xm_cwd xm_empty xk_ops m) [s2b "home"; s2b "x"] = Some (NFile xs_data).
Proof.
  assert (E : match nth_error (pr_torrents (xm_run xk_list)) 0 with
    | Some x => (sy_mail x, sy_queue x, sy_working x, sy_writer x, ta_info (sy_actor x), match requested (sy_trace x) with [] => false | _ => true end)
    | None => ([], [], [], [], None, false) end = ([], [], [], [], Some xs_info, true)) by (vm_compute; reflexivity).
  destruct (nth_error (pr_torrents (xm_run xk_list)) 0) as [x|] eqn:EX; [|discriminate E]. injection E as M Q K W EI RQ.
  assert (Z : match nth_error (pr_torrents (xm_run (firstn (List.length xk_list - 1) xk_list))) 0 with
    | Some y => match sy_writer y with [] => false | _ => true end
    | None => false end = true) by (vm_compute; reflexivity).
  destruct (nth_error (pr_torrents (xm_run (firstn (List.length xk_list - 1) xk_list))) 0) as [y|] eqn:EY; [|discriminate Z].
  assert (NW : sy_writer y <> []) by (destruct (sy_writer y); [discriminate Z|discriminate]).
  assert (NR : requested (sy_trace x) <> []) by (destruct (requested (sy_trace x)); [discriminate RQ|discriminate]).
  assert (OL : Forall pop_ok xk_list) by ops_ok.
  assert (NL : xk_list <> []) by discriminate.
  assert (CH : forallb not_add (tl xk_list) = true) by (vm_compute; reflexivity).
  assert (G : xf_check xf_good (process_init xm_empty) xk_list = true) by (vm_compute; reflexivity).
  assert (SV : xs_check 11 (xs_server (compute_info_hash sha1 xs_info) (i_piece_length xs_info) xs_data) (process_init xm_empty) xk_list = true) by (vm_compute; reflexivity).
  assert (IC : xk_check xk_step (process_init xm_empty) xk_list = true) by (vm_compute; reflexivity).
  assert (AC : xk_check xk_answer (process_init xm_empty) xk_list = true) by (vm_compute; reflexivity).
  assert (AL : xk_alive (process_init xm_empty) xk_list = true) by (vm_compute; reflexivity).
  assert (IE : pr_interface (xm_run xk_list) = []) by (vm_compute; reflexivity).
  assert (TE : match nth_error (pr_trackers (xm_run xk_list)) 0 with Some x => tk_mail x = [] /\ tk_jobs x = [] | None => False end) by (vm_compute; split; reflexivity).
  assert (L1 : List.length (pr_torrents (xm_run (firstn 1 xk_list))) = 1%nat) by (vm_compute; reflexivity).
  assert (LE : List.length xk_list = 31%nat) by (vm_compute; reflexivity).
  assert (NF : Forall never_full xk_list) by (repeat constructor).
  assert (RE : Forall (reachability (fun _ => true)) xk_list) by (repeat constructor).
  assert (DX : pr_disk (xm_run xk_list) [s2b "home"; s2b "x"] = Some (NFile xs_data)) by (vm_compute; reflexivity).
  pose proof xk_proper as PP. unfold xk_ops in *.
  revert OL NL CH EX NR G EY LE DX SV IC AC AL IE TE L1 NF RE PP. generalize xk_list. clear Z RQ. intros l OL NL CH EX NR G EY LE DX SV IC AC AL IE TE L1 NF RE PP.
  pose proof (xs_same_info xs_info xs_F xs_T l x xs_describes OL NL CH EX Q EI) as SI.
  destruct (xf_idle xs_info xs_F xs_T l x y xs_describes xk_apart xk_ready OL NL CH EX (conj M (conj Q (conj K W))) EI NR G EY NW) as (H1 & H2 & H3 & H4 & H5 & H6).
  split; [exact H1|]. split; [intros b; split; [apply digest_length|apply digest_ok]|]. split; [exact PP|].
  split; [exact (xk_introduced l IC)|]. split; [intros u; apply (xs_served 11 xs_info xs_data l OL SI SV)|].
  split; [apply xk_every; [exact NF|exact I]|]. split; [apply xk_every; [exact RE|exact I]|]. split; [exact (xk_attended l AL IE TE)|].
  split; [exact H3|]. split; [rewrite followed_first by lia; exact L1|]. split; [exact (xk_answers l AC)|].
  intros m L. rewrite H6 by (rewrite LE; exact L). exact DX.
Qed.
