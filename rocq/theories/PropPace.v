(** PropPace: property C85 (how long a torrent takes) *)
From Coq Require Import Permutation Lia.
From Verif Require Import Base Utf8 ModelBencode ModelMessages ModelTorrent ModelWriter ModelTracker ModelStream ModelPeer ModelLive
  ModelActors ModelCache ModelMain ModelSha1 ProofBase SpecBencode SpecMessages SpecTorrent SpecStream SpecWriter SpecPieces SpecSystem SpecPeer
  SpecSession SpecLookup SpecMain ProofSha1 ProofMain PropPeer PropSystem PropLookup PropMain SpecWhole SpecForever ProofForever PropForever
  SpecLive SpecSeeds SpecPace ProofPace.

(** C85: while no worker is lost and no download fails, a torrent that is attended to is complete on the disk after one round of its
    downloads for every five pieces, and the time the writer needs; unless a peer has sent wrong data with the right hash. *)
Theorem C85_in_time : forall sha1 p cwd F T d ops t time start fetch note store, (forall n, pop_ok (ops n)) ->
  (forall n, let s := state_at sha1 p cwd d ops n in
     apart (List.length (pr_torrents s)) F T /\ (forall u, (u < List.length (pr_torrents s))%nat -> disk_ready cwd (F u) d) /\ told sha1 F T s) ->
  (forall n x, torrent_at sha1 p cwd d ops t n = Some x -> sy_workers x = 5%nat /\ failed_so_far x = 0%N) ->
  clock time -> prompt sha1 p cwd d ops t time start fetch note store ->
  forall n x i, torrent_at sha1 p cwd d ops t n = Some x -> requested (sy_trace x) <> [] -> ta_info (sy_actor x) = Some i ->
  let count := piece_count (lenN (T t)) (i_piece_length i) in
  forall m, (time n + piece_count count 5 * (start + fetch + note) + count * store < time m)%N ->
    some_collision sha1 T (state_at sha1 p cwd d ops m) \/ complete_on cwd (F t) (T t) (pr_disk (state_at sha1 p cwd d ops m)).
Proof. exact c85_in_time. Qed.
Print Assumptions C85_in_time.

(** C85: without these provisos, if the peers are servers as in C83. *)
Theorem C85_served : forall sha1 p cwd F T d ops t time start fetch note store, (forall b, List.length (sha1 b) = 20%nat) -> (forall n, pop_ok (ops n)) ->
  (forall n, let s := state_at sha1 p cwd d ops n in
     apart (List.length (pr_torrents s)) F T /\ (forall u, (u < List.length (pr_torrents s))%nat -> disk_ready cwd (F u) d) /\ told sha1 F T s) ->
  (forall u n x i, torrent_at sha1 p cwd d ops u n = Some x -> ta_info (sy_actor x) = Some i -> well_shaped i (T u)) ->
  (forall u n, served sha1 p 11 (T u) u (state_at sha1 p cwd d ops n) (ops n)) ->
  clock time -> prompt sha1 p cwd d ops t time start fetch note store ->
  forall n x i, torrent_at sha1 p cwd d ops t n = Some x -> requested (sy_trace x) <> [] -> ta_info (sy_actor x) = Some i ->
  let count := piece_count (lenN (T t)) (i_piece_length i) in
  forall m, (time n + piece_count count 5 * (start + fetch + note) + count * store < time m)%N ->
    complete_on cwd (F t) (T t) (pr_disk (state_at sha1 p cwd d ops m)).
Proof. exact c85_served. Qed.
Print Assumptions C85_served.

(** C85: whatever the peers are and however many: if no download takes less than [least], then from a moment at which none has begun,
    one such time passes for every five pieces that are handed to the writer. *)
Theorem C85_at_least : forall sha1 p cwd d ops t time, (forall n, pop_ok (ops n)) ->
  forall least, no_sooner sha1 p cwd d ops t time least -> clock time ->
  forall n x, torrent_at sha1 p cwd d ops t n = Some x -> sy_working x = [] -> received x = [] ->
  forall m y, (n <= m)%nat -> torrent_at sha1 p cwd d ops t m = Some y -> (time n + piece_count (lenN (completed y)) 5 * least <= time m)%N.
Proof. exact c85_at_least. Qed.
Print Assumptions C85_at_least.

(** ** Example: six pieces, each of which takes ten seconds *)

Definition xp_data : bytes := [1; 2; 3; 4; 5; 6]%N.
Definition xp_info : info :=
  {| i_length := Some 6%N; i_files := None; i_name := s2b "x"; i_piece_length := 1%N;
     i_pieces := flat_map (fun k => sha1 (torrent_piece xp_data 1 k)) [0; 1; 2; 3; 4; 5]%N |}.
Definition xp_hash : bytes := compute_info_hash sha1 xp_info.
Definition xp_meta : bytes := enc_info xp_info.
Definition xp_finish (k : N) : pop := PFinish 0 0 (Some (seed xp_hash xm_pid k [torrent_piece xp_data 1 k])) xm_pid 9.
Definition xp_handle : pop := PHandle 0 0 0 0 None xm_pid xm_same.
(** The steps and their times; the second of the two downloads of one worker begins after ten seconds. *)
Definition xp_timed : list (N * pop) :=
  map (fun o => (0%N, o)) (xm_add xp_hash ++ PHandle 0 0 1000 5 (Some (info_seed xp_hash xm_pid (lenN xp_meta) 3 [xp_meta])) xm_pid xm_same ::
    repeat xp_handle 10 ++ repeat (PStart 0) 6) ++
  map (fun o => (10%N, o)) (map xp_finish [0; 1; 2; 3; 4]%N ++ repeat xp_handle 5 ++ repeat (PWrite 0) 5 ++ repeat (PStart 0) 2) ++
  map (fun o => (20%N, o)) [xp_finish 5; xp_handle; PWrite 0].
Definition xp_list : list pop := map snd xp_timed.
Definition xp_ops : nat -> pop := followed_by xp_list (fun _ => PStart 0).
Definition xp_times : list N := map fst xp_timed ++ [20%N].
Definition xp_time (n : nat) : N := nth n xp_times 30%N.

(** Where the pieces are: requested, being downloaded, answered, waiting for the writer, received. *)
Record places := { pl_queue : list N; pl_working : list N; pl_answers : list N; pl_writer : list N; pl_received : list N }.
Definition nowhere : places := {| pl_queue := []; pl_working := []; pl_answers := []; pl_writer := []; pl_received := [] |}.
Definition places_of (x : sys) : places :=
  {| pl_queue := map rq_idx (sy_queue x); pl_working := map rq_idx (sy_working x); pl_answers := flat_map answer_for (sy_mail x);
     pl_writer := map rd_idx (sy_writer x); pl_received := received x |}.
Fixpoint scan (s : process) (l : list pop) : list process :=
  s :: match l with [] => [] | o :: l => scan (pr_step sha1 Debug xm_cwd s o) l end.
Definition xp_places (s : process) : places := match nth_error (pr_torrents s) 0 with Some x => places_of x | None => nowhere end.
Definition mem (k : N) (l : list N) : bool := existsb (N.eqb k) l.
(** Whatever is in [f] at some moment is not in [g] any more at most [bound] later. *)
Fixpoint leaves (f g : places -> list N) (bound : N) (l : list (N * places)) : bool :=
  match l with
  | [] => true
  | (tm, s) :: r => forallb (fun k => existsb (fun q => (fst q <=? tm + bound)%N && negb (mem k (g (snd q)))) l) (f s) && leaves f g bound r
  end.
(** Whatever is received has been begun or received [least] before. *)
Fixpoint takes (least : N) (l : list (N * places)) : bool :=
  match l with
  | [] => true
  | (tm, s) :: r => forallb (fun q => forallb (fun k => mem k (pl_working s) || mem k (pl_received s) || (tm + least <=? fst q)%N) (pl_received (snd q))) l && takes least r
  end.

Lemma mem_in : forall k l, mem k l = true <-> In k l.
Proof.
  intros k l. unfold mem. rewrite existsb_exists. split; [intros (x & I & E); apply N.eqb_eq in E as ->; auto|]. intros I. exists k. split; [auto|apply N.eqb_refl].
Qed.
Lemma scan_nth : forall l s n, (n <= List.length l)%nat -> nth_error (scan s l) n = Some (pr_run sha1 Debug xm_cwd s (firstn n l)).
Proof.
  induction l as [|o l IH]; intros s n L; destruct n as [|n]; cbn [scan nth_error firstn] in *; try reflexivity; [cbn in L; lia|].
  rewrite IH by (cbn in L; lia). reflexivity.
Qed.
Lemma leaves_nth : forall f g bound l n tm s k, leaves f g bound l = true -> nth_error l n = Some (tm, s) -> In k (f s) ->
  exists m tm' s', (n <= m)%nat /\ nth_error l m = Some (tm', s') /\ (tm' <= tm + bound)%N /\ ~ In k (g s').
Proof.
  intros f g bound. induction l as [|[tm0 s0] r IH]; intros n tm s k L H I; [destruct n; discriminate|]. cbn [leaves] in L. apply andb_prop in L as [L1 L2].
  destruct n as [|n]; cbn [nth_error] in H.
  - injection H as -> ->. rewrite forallb_forall in L1. specialize (L1 k I). apply existsb_exists in L1 as ([tm' s'] & J & B). apply andb_prop in B as [B1 B2].
    apply In_nth_error in J as (m & J). exists m, tm', s'. split; [lia|]. split; [exact J|]. split; [apply N.leb_le; exact B1|].
    intros X. apply mem_in in X. cbn [snd] in B2. rewrite X in B2. discriminate.
  - destruct (IH n tm s k L2 H I) as (m & tm' & s' & LE & J & R). exists (S m), tm', s'. split; [lia|]. auto.
Qed.
Lemma takes_nth : forall least l n m tm s tm' s' k, takes least l = true -> (n <= m)%nat -> nth_error l n = Some (tm, s) -> nth_error l m = Some (tm', s') ->
  In k (pl_received s') -> ~ In k (pl_working s) -> ~ In k (pl_received s) -> (tm + least <= tm')%N.
Proof.
  intros least. induction l as [|[tm0 s0] r IH]; intros n m tm s tm' s' k T L H H' I N1 N2; [destruct n; discriminate|]. cbn [takes] in T. apply andb_prop in T as [T1 T2].
  destruct n as [|n]; cbn [nth_error] in H.
  - injection H as -> ->. rewrite forallb_forall in T1. specialize (T1 _ (nth_error_In _ _ H')). rewrite forallb_forall in T1. specialize (T1 k I).
    apply orb_prop in T1 as [T1|T1]; [|apply N.leb_le; exact T1]. apply orb_prop in T1 as [T1|T1]; apply mem_in in T1; contradiction.
  - destruct m as [|m]; [lia|]. cbn [nth_error] in H'. eapply (IH n m); eauto. lia.
Qed.

Lemma xp_nth : forall (w : N) l times, List.length times = S (List.length l) -> forall n, (n <= List.length l)%nat ->
  nth_error (combine times (map xp_places (scan (process_init xm_empty) l))) n
  = Some (nth n times w, xp_places (state_at sha1 Debug xm_cwd xm_empty (followed_by l (fun _ => PStart 0)) n)).
Proof.
  intros w l times LT n L. rewrite followed_first by auto.
  assert (G : forall (a : list N) (b : list places) n x y, nth_error a n = Some x -> nth_error b n = Some y -> nth_error (combine a b) n = Some (x, y)).
  { induction a as [|? a IH]; intros [|? b] [|k] x y A B; cbn in *; try discriminate; [congruence|auto]. }
  apply G; [apply nth_error_nth'; lia|]. rewrite nth_error_map, scan_nth by auto. reflexivity.
Qed.

(** For any list of steps after which torrent 0 has nothing left to do. *)
Lemma xp_paced : forall (w : N) l times x start fetch note store least, List.length times = S (List.length l) -> Forall (fun tm => (tm <= w)%N) times ->
  nth_error (pr_torrents (xm_run l)) 0 = Some x -> at_rest x ->
  let all := combine times (map xp_places (scan (process_init xm_empty) l)) in
  leaves pl_queue pl_queue start all = true -> leaves pl_working pl_working fetch all = true -> leaves pl_answers pl_answers note all = true ->
  leaves pl_writer pl_writer store all = true -> takes least all = true ->
  prompt sha1 Debug xm_cwd xm_empty (followed_by l (fun _ => PStart 0)) 0 (fun n => nth n times w) start fetch note store /\
  no_sooner sha1 Debug xm_cwd xm_empty (followed_by l (fun _ => PStart 0)) 0 (fun n => nth n times w) least.
Proof.
  intros w l times x start fetch note store least LT T30 EX AR all L1 L2 L3 L4 TK.
  assert (SX : torrent_at sha1 Debug xm_cwd xm_empty (followed_by l (fun _ => PStart 0)) 0 (List.length l) = Some x).
  { unfold torrent_at. rewrite followed_first, firstn_all by lia. exact EX. }
  pose proof AR as (M & Q & K & W). pose proof (idle_later sha1 Debug xm_cwd xm_empty l x SX Q) as LATER.
  assert (END : forall n y, (List.length l <= n)%nat -> torrent_at sha1 Debug xm_cwd xm_empty (followed_by l (fun _ => PStart 0)) 0 n = Some y -> exists D, y = set_disk D x).
  { intros n y L H. destruct (LATER (n - List.length l)%nat) as (D & E & _). replace (List.length l + (n - List.length l))%nat with n in E by lia. exists D. congruence. }
  assert (EARLY : forall f g bound, leaves f g bound all = true -> forall n y k, (n <= List.length l)%nat ->
    torrent_at sha1 Debug xm_cwd xm_empty (followed_by l (fun _ => PStart 0)) 0 n = Some y -> In k (f (places_of y)) ->
    within sha1 Debug xm_cwd xm_empty (followed_by l (fun _ => PStart 0)) 0 (fun n => nth n times w) n bound (fun z => ~ In k (g (places_of z)))).
  { intros f g bound LV n y k L H I. pose proof (xp_nth w l times LT n L) as E. fold all in E. unfold xp_places in E. unfold torrent_at in H. rewrite H in E.
    destruct (leaves_nth f g bound all n _ _ k LV E I) as (m & tm' & s' & LE & E' & B & NI).
    assert (Lm : (m <= List.length l)%nat).
    { assert (m < List.length all)%nat by (apply nth_error_Some; congruence). unfold all in H0. rewrite combine_length in H0. lia. }
    unfold all in E'. rewrite (xp_nth w l times LT m Lm) in E'. injection E' as <- <-.
    assert (OM : exists z, torrent_at sha1 Debug xm_cwd xm_empty (followed_by l (fun _ => PStart 0)) 0 m = Some z).
    { clear - H LE. unfold torrent_at. induction LE as [|m LE IH]; [eauto|]. destruct IH as (z & Z). rewrite state_S.
      destruct (torrent_forward sha1 Debug xm_cwd _ (followed_by l (fun _ => PStart 0) m) 0 z Z) as (z' & Z' & _). eauto. }
    destruct OM as (z & Z). exists m, z. split; [exact LE|]. split; [exact B|]. split; [exact Z|]. unfold xp_places in NI. unfold torrent_at in Z. rewrite Z in NI. exact NI. }
  split; [constructor|].
  - intros n y k H I _. destruct (Nat.le_gt_cases n (List.length l)) as [L|L]; [exact (EARLY _ _ _ L1 n y k L H I)|].
    destruct (END n y ltac:(lia) H) as (D & ->). cbn [set_disk sy_queue] in I. rewrite Q in I. destruct I.
  - intros n y k H I. destruct (Nat.le_gt_cases n (List.length l)) as [L|L]; [exact (EARLY _ _ _ L2 n y k L H I)|].
    destruct (END n y ltac:(lia) H) as (D & ->). cbn [set_disk sy_working] in I. rewrite K in I. destruct I.
  - intros n y k H I. destruct (Nat.le_gt_cases n (List.length l)) as [L|L]; [exact (EARLY _ _ _ L3 n y k L H I)|].
    destruct (END n y ltac:(lia) H) as (D & ->). cbn [set_disk sy_mail] in I. rewrite M in I. destruct I.
  - intros n y r rest H E. destruct (Nat.le_gt_cases n (List.length l)) as [L|L].
    + refine (EARLY _ _ _ L4 n y (rd_idx r) L H _). cbn [pl_writer places_of]. rewrite E. left. reflexivity.
    + destruct (END n y ltac:(lia) H) as (D & ->). cbn [set_disk sy_writer] in E. rewrite W in E. discriminate.
  - assert (LATE : forall n, (List.length l < n)%nat -> nth n times w = w) by (intros n L; apply nth_overflow; lia).
    assert (B30 : forall n, (nth n times w <= w)%N).
    { intros n. destruct (Nat.lt_ge_cases n (List.length times)) as [L|L]; [rewrite Forall_forall in T30; apply T30, nth_In; exact L|rewrite nth_overflow by exact L; lia]. }
    assert (CLAMP : forall n y, torrent_at sha1 Debug xm_cwd xm_empty (followed_by l (fun _ => PStart 0)) 0 n = Some y ->
      nth_error all (Nat.min n (List.length l)) = Some (nth (Nat.min n (List.length l)) times w, places_of y)).
    { intros n y H. unfold all. rewrite (xp_nth w l times LT _ (Nat.le_min_r _ _)). f_equal. f_equal. unfold xp_places.
      destruct (Nat.min_spec n (List.length l)) as [[L ->]|[L ->]].
      - unfold torrent_at in H. rewrite H. reflexivity.
      - unfold torrent_at in SX. rewrite SX. destruct (END n y L H) as (D & ->). reflexivity. }
    intros n m y z k L H H' NW NR I.
    pose proof (takes_nth least all _ _ _ _ _ _ k TK (Nat.min_le_compat_r n m (List.length l) L) (CLAMP n y H) (CLAMP m z H') I NW NR) as G.
    destruct (Nat.min_spec m (List.length l)) as [[Lm Em]|[Lm Em]]; rewrite Em in G.
    + rewrite Nat.min_l in G by lia. exact G.
    + destruct (Nat.le_gt_cases n (List.length l)) as [Ln|Ln].
      * rewrite Nat.min_l in G by lia. destruct (Nat.eq_dec m (List.length l)) as [->|NE]; [exact G|]. rewrite (LATE m) by lia.
        pose proof (B30 (List.length l)). lia.
      * exfalso. destruct (END n y ltac:(lia) H) as (D & ->). destruct (END m z ltac:(lia) H') as (D' & ->). exact (NR I).
Qed.

Definition xp_files : list file := [{| f_path := [s2b "x"]; f_length := 6%N |}].
Definition xp_F (t : nat) : list file := xp_files.
Definition xp_T (t : nat) : bytes := xp_data.
Lemma xp_describes : describes sha1 xp_info xp_files xp_data.
Proof.
  assert (G : good_files xp_files).
  { split; [constructor; [exact xm_sane_x|constructor]|].
    intros i j f g HI HJ NE. destruct i as [|[|i]], j as [|[|j]]; try discriminate; congruence. }
  split; [apply SpecTorrent.co_single; reflexivity|]. split; [reflexivity|]. split; [reflexivity|]. split; [reflexivity|]. split; [exact G|].
  intros idx I. change (piece_count (lenN xp_data) (i_piece_length xp_info)) with 6%N in I. cbn [xp_info i_piece_length i_pieces].
  assert (D : forall m, List.length (sha1 m) = 20%nat) by (intros; apply digest_length).
  assert (C : forall k (l : list N), (forall j, (j < k)%nat -> List.length (sha1 (torrent_piece xp_data 1 (nth j l 0%N))) = 20%nat) -> (k < List.length l)%nat ->
    firstn 20 (skipn (20 * k) (flat_map (fun j => sha1 (torrent_piece xp_data 1 j)) l)) = sha1 (torrent_piece xp_data 1 (nth k l 0%N))).
  { induction k as [|k IH]; intros [|a l] F L; cbn [List.length] in L; try lia; cbn [flat_map nth].
    - rewrite Nat.mul_0_r, skipn_O, firstn_app, D. rewrite Nat.sub_diag, firstn_O, app_nil_r. apply firstn_all2. rewrite D. auto.
    - rewrite skipn_app, D, skipn_all2 by (rewrite D; lia). replace (20 * S k - 20)%nat with (20 * k)%nat by lia. apply IH; [intros; apply D|lia]. }
  rewrite C; [|intros; apply D|cbn; lia]. assert (E : (idx = 0 \/ idx = 1 \/ idx = 2 \/ idx = 3 \/ idx = 4 \/ idx = 5)%N) by lia.
  destruct E as [->|[->|[->|[->|[->| ->]]]]]; reflexivity.
Qed.

Definition xp_check (all : list (N * places)) : bool :=
  leaves pl_queue pl_queue 0 all && leaves pl_working pl_working 10 all && leaves pl_answers pl_answers 0 all && leaves pl_writer pl_writer 0 all && takes 10 all.
Lemma xp_checks : forall all, xp_check all = true -> leaves pl_queue pl_queue 0 all = true /\ leaves pl_working pl_working 10 all = true /\
  leaves pl_answers pl_answers 0 all = true /\ leaves pl_writer pl_writer 0 all = true /\ takes 10 all = true.
Proof.
  intros all C. unfold xp_check in C. apply andb_prop in C as [C C5]. apply andb_prop in C as [C C4]. apply andb_prop in C as [C C3]. apply andb_prop in C as [C1 C2]. auto.
Qed.

(** The hypotheses of C85_in_time and C85_at_least hold of this execution; the torrent is complete after twenty seconds, as the one says,
    and not before, as the other says. *)
Example C85_example :
  (forall n, pop_ok (xp_ops n)) /\
  (forall n, let s := state_at sha1 Debug xm_cwd xm_empty xp_ops n in
     apart (List.length (pr_torrents s)) xp_F xp_T /\ (forall u, (u < List.length (pr_torrents s))%nat -> disk_ready xm_cwd (xp_F u) xm_empty) /\ told sha1 xp_F xp_T s) /\
  (forall n x, torrent_at sha1 Debug xm_cwd xm_empty xp_ops 0 n = Some x -> sy_workers x = 5%nat /\ failed_so_far x = 0%N) /\
  clock xp_time /\ prompt sha1 Debug xm_cwd xm_empty xp_ops 0 xp_time 0 10 0 0 /\ no_sooner sha1 Debug xm_cwd xm_empty xp_ops 0 xp_time 10 /\
  (exists x, torrent_at sha1 Debug xm_cwd xm_empty xp_ops 0 27 = Some x /\ requested (sy_trace x) <> [] /\ ta_info (sy_actor x) = Some xp_info /\
     sy_working x = [] /\ received x = [] /\ xp_time 27 = 0%N) /\
  (exists y, torrent_at sha1 Debug xm_cwd xm_empty xp_ops 0 53 = Some y /\ completed y = [0; 1; 2; 3; 4; 5]%N /\ xp_time 53 = 20%N) /\
  (piece_count (piece_count (lenN xp_data) 1) 5 = 2)%N.
Proof.
  assert (E : match nth_error (pr_torrents (xm_run xp_list)) 0 with
    | Some x => (sy_mail x, sy_queue x, sy_working x, sy_writer x, ta_info (sy_actor x), match requested (sy_trace x) with [] => false | _ => true end, completed x)
    | None => ([], [], [], [], None, false, []) end = ([], [], [], [], Some xp_info, true, [0; 1; 2; 3; 4; 5]%N)) by (vm_compute; reflexivity).
  destruct (nth_error (pr_torrents (xm_run xp_list)) 0) as [x|] eqn:EX; [|discriminate E]. injection E as M Q K W EI RQ CX.
  assert (Z : match nth_error (pr_torrents (xm_run (firstn (List.length xp_list - 1) xp_list))) 0 with
    | Some y => match sy_writer y with [] => false | _ => true end
    | None => false end = true) by (vm_compute; reflexivity).
  destruct (nth_error (pr_torrents (xm_run (firstn (List.length xp_list - 1) xp_list))) 0) as [y|] eqn:EY; [|discriminate Z].
  assert (B : match nth_error (pr_torrents (xm_run (firstn 27 xp_list))) 0 with
    | Some x => (sy_working x, received x, ta_info (sy_actor x), match requested (sy_trace x) with [] => false | _ => true end)
    | None => ([], [], None, false) end = ([], [], Some xp_info, true)) by (vm_compute; reflexivity).
  destruct (nth_error (pr_torrents (xm_run (firstn 27 xp_list))) 0) as [b|] eqn:EB; [|discriminate B]. injection B as B1 B2 B3 B4.
  assert (NW : sy_writer y <> []) by (destruct (sy_writer y); [discriminate Z|discriminate]).
  assert (NR : requested (sy_trace x) <> []) by (destruct (requested (sy_trace x)); [discriminate RQ|discriminate]).
  assert (NB : requested (sy_trace b) <> []) by (destruct (requested (sy_trace b)); [discriminate B4|discriminate]).
  assert (OL : Forall pop_ok xp_list) by ops_ok.
  assert (NL : xp_list <> []) by discriminate.
  assert (CH : forallb not_add (tl xp_list) = true) by (vm_compute; reflexivity).
  assert (G : xf_check xf_good (process_init xm_empty) xp_list = true) by (vm_compute; reflexivity).
  assert (C : xp_check (combine xp_times (map xp_places (scan (process_init xm_empty) xp_list))) = true) by (vm_compute; reflexivity).
  assert (LE : List.length xp_list = 53%nat) by (vm_compute; reflexivity).
  assert (LT : List.length xp_times = S (List.length xp_list)) by (vm_compute; reflexivity).
  assert (T30 : Forall (fun tm => (tm <= 30)%N) xp_times).
  { apply Forall_forall. intros tm I. assert (F : forallb (fun tm => (tm <=? 30)%N) xp_times = true) by (vm_compute; reflexivity). rewrite forallb_forall in F. apply N.leb_le. exact (F tm I). }
  assert (CK : clock xp_time).
  { intros n. unfold xp_time. assert (F : forallb (fun k => (nth k xp_times 30 <=? nth (S k) xp_times 30)%N) (seq 0 54) = true) by (vm_compute; reflexivity).
    destruct (Nat.lt_ge_cases n 54) as [L|L]; [|rewrite !nth_overflow by lia; lia]. rewrite forallb_forall in F. apply N.leb_le. apply F. apply in_seq. lia. }
  assert (T1 : xp_time 27 = 0%N) by (vm_compute; reflexivity). assert (T2 : xp_time 53 = 20%N) by (vm_compute; reflexivity).
  assert (AP : forall n, apart n xp_F xp_T).
  { intros n. split; [intros t _; split; [apply xp_describes|intros f [<-|[]]; discriminate]|]. intros t u _ _. left. auto. }
  unfold xp_time in *. unfold xp_ops.
  revert LT T30 CK T1 T2 OL NL CH EX EB G EY LE C. generalize xp_times. generalize xp_list. clear Z RQ B4.
  intros l times LT T30 CK T1 T2 OL NL CH EX EB G EY LE C.
  destruct (xf_idle xp_info xp_F xp_T l x y xp_describes AP ltac:(intros u f _; split; auto) OL NL CH EX (conj M (conj Q (conj K W))) EI NR G EY NW) as (H1 & H2 & H3 & H4 & H5 & H6).
  destruct (xp_checks _ C) as (C1 & C2 & C3 & C4 & C5).
  destruct (xp_paced 30 l times x 0 10 0 0 10 LT T30 EX (conj M (conj Q (conj K W))) C1 C2 C3 C4 C5) as [PR NS].
  split; [exact H1|]. split; [exact H2|]. split; [intros n z HZ; destruct (H4 n z HZ); split; [auto|lia]|].
  split; [exact CK|]. split; [exact PR|]. split; [exact NS|]. split; [|split; [|reflexivity]].
  - exists b. split; [unfold torrent_at; rewrite followed_first by lia; exact EB|]. auto 10.
  - exists x. split; [|auto]. unfold torrent_at. rewrite followed_first by lia. rewrite <- LE, firstn_all. exact EX.
Qed.
