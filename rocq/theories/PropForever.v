(** PropForever: property C68 (executions that go on forever) *)
From Coq Require Import Permutation Lia.
From Verif Require Import Base Utf8 ModelBencode ModelMessages ModelTorrent ModelWriter ModelTracker ModelStream ModelPeer
  ModelActors ModelCache ModelMain ModelSha1 SpecMessages SpecTorrent SpecStream SpecWriter SpecPieces SpecSystem
  SpecSession SpecLookup SpecMain ProofSha1 ProofMain PropLookup PropMain SpecWhole SpecForever ProofForever.

(** C68: in every execution that goes on forever, however the parts of the program, the torrents and the
    peers take turns: a torrent that never stops with something left to do, loses no download worker and
    has only finitely many failed downloads is complete on the disk from some moment on (or a peer has
    sent wrong data with the right hash). *)
Theorem C68_eventually_complete : forall sha1 p cwd F T d ops t B, (forall n, pop_ok (ops n)) ->
  (forall n, let s := state_at sha1 p cwd d ops n in
     apart (List.length (pr_torrents s)) F T /\ (forall u, (u < List.length (pr_torrents s))%nat -> disk_ready cwd (F u) d) /\ told sha1 F T s) ->
  never_stuck sha1 p cwd d ops t ->
  (forall n x, torrent_at sha1 p cwd d ops t n = Some x -> sy_workers x = 5%nat /\ (failed_so_far x <= B)%N) ->
  (exists n x, torrent_at sha1 p cwd d ops t n = Some x /\ requested (sy_trace x) <> []) ->
  exists n, forall m, (n <= m)%nat ->
    some_collision sha1 T (state_at sha1 p cwd d ops m) \/ complete_on cwd (F t) (T t) (pr_disk (state_at sha1 p cwd d ops m)).
Proof. exact c68. Qed.
Print Assumptions C68_eventually_complete.

(** C68: with finitely many failed downloads a torrent comes to rest, again and again, even if it loses
    workers and whatever its description says. *)
Theorem C68_comes_to_rest : forall sha1 p cwd d ops t B n x i, (forall n, pop_ok (ops n)) -> never_stuck sha1 p cwd d ops t ->
  (forall n x, torrent_at sha1 p cwd d ops t n = Some x -> (failed_so_far x <= B)%N) ->
  torrent_at sha1 p cwd d ops t n = Some x -> ta_info (sy_actor x) = Some i ->
  exists n' x', (n <= n')%nat /\ torrent_at sha1 p cwd d ops t n' = Some x' /\ at_rest x'.
Proof. exact c68_rest. Qed.
Print Assumptions C68_comes_to_rest.

(** C68: that needs no assumption about the trackers: on behalf of one torrent there are at most eighteen
    lookups, and at most one report for each peer in their answers. *)
Theorem C68_reports_bounded : forall sha1 p cwd d ops s, started sha1 p cwd d ops s -> forall t x, nth_error (pr_torrents s) t = Some x ->
  (List.length (reported x) <= List.length (peers_for t (lookups sha1 p cwd (process_init d) ops)))%nat /\
  (List.length (filter (fun l => (ld_torrent l =? t)%nat) (lookups sha1 p cwd (process_init d) ops)) <= 18)%nat.
Proof. exact c68_reports. Qed.
Print Assumptions C68_reports_bounded.

(** ** Examples *)

(** A torrent is downloaded, and then nothing happens any more. *)
Definition xf_list : list pop := xm_add (xm_hash (s2b "x") xm_a) ++ xm_download 0 (s2b "x") xm_a.
Definition xf_ops : nat -> pop := followed_by xf_list (fun _ => PStart 0).
(** The torrent is started, and then nobody accepts a connection any more. *)
Definition xf_meta : bytes := enc_info (xm_info (s2b "x") xm_a).
Definition xf_begin : list pop := xm_add (xm_hash (s2b "x") xm_a) ++
  PHandle 0 0 1000 5 (Some (info_seed (xm_hash (s2b "x") xm_a) xm_pid (lenN xf_meta) 3 [xf_meta])) xm_pid xm_same ::
  repeat (PHandle 0 0 0 0 None xm_pid xm_same) 10.
Definition xf_refused : nat -> pop := followed_by xf_begin refusal.
Definition xf_F (t : nat) : list file := xm_files (s2b "x").
Definition xf_T (t : nat) : bytes := xm_a.

Lemma xf_apart : forall n, apart n xf_F xf_T.
Proof.
  intros n. split; [intros t _; split; [apply (xm_describes (s2b "x") xm_a); [exact xm_sane_x|reflexivity]|intros f [<-|[]]; discriminate]|].
  intros t u _ _. left. auto.
Qed.

(** What is true of the states of a list of steps, checked one by one. *)
Fixpoint xf_check (f : process -> bool) (s : process) (l : list pop) : bool :=
  f s && match l with [] => true | o :: l => xf_check f (pr_step sha1 Debug xm_cwd s o) l end.
Lemma xf_checked : forall f l n s, xf_check f s l = true -> (n <= List.length l)%nat -> f (pr_run sha1 Debug xm_cwd s (firstn n l)) = true.
Proof.
  intros f. induction l as [|o l IH]; intros n s H L; cbn [xf_check] in H; apply andb_prop in H as [H1 H2].
  - destruct n; [exact H1|cbn in L; lia].
  - destruct n as [|n]; [exact H1|]. cbn [firstn]. cbn [List.length] in L. apply (IH n _ H2). lia.
Qed.

(** The description of torrent 0 at any moment is the one it has at the end of the list. *)
Lemma xf_told : forall i F T l tail, describes sha1 i (F 0%nat) (T 0%nat) -> Forall pop_ok l -> (forall k, pop_ok (tail k)) ->
  (forall n, (List.length (pr_torrents (state_at sha1 Debug xm_cwd xm_empty (followed_by l tail) n)) <= 1)%nat) ->
  (forall k x, torrent_at sha1 Debug xm_cwd xm_empty (followed_by l tail) 0 (List.length l + k) = Some x -> ta_info (sy_actor x) = Some i) ->
  forall n, told sha1 F T (state_at sha1 Debug xm_cwd xm_empty (followed_by l tail) n) /\
    forall t x j, torrent_at sha1 Debug xm_cwd xm_empty (followed_by l tail) t n = Some x -> ta_info (sy_actor x) = Some j -> t = 0%nat /\ j = i.
Proof.
  intros i F T l tail DE OL OT L1 EI n.
  assert (G : forall t x j, torrent_at sha1 Debug xm_cwd xm_empty (followed_by l tail) t n = Some x -> ta_info (sy_actor x) = Some j -> t = 0%nat /\ j = i).
  { intros t x j H I. destruct t as [|t].
    2:{ exfalso. assert (S t < 1)%nat by (apply (Nat.lt_le_trans _ (List.length (pr_torrents (state_at sha1 Debug xm_cwd xm_empty (followed_by l tail) n)))); [apply nth_error_Some; unfold torrent_at in H; congruence|auto]). lia. }
    destruct (kept_run sha1 Debug xm_cwd xm_empty (followed_by l tail) 0 (List.length l) n x (followed_ok _ _ OL OT) H) as (y & HY & _ & _ & K).
    rewrite Nat.add_comm in HY. rewrite (EI n y HY) in K. specialize (K j I). injection K as <-. auto. }
  split; [|exact G]. intros t x j H I. destruct (G t x j H I) as [-> ->]. exact DE.
Qed.

Definition xf_good (s : process) : bool :=
  match nth_error (pr_torrents s) 0 with
  | Some x => (sy_workers x =? 5)%nat && (failed_so_far x =? 0)%N
  | None => true
  end.

(** For any list of steps after which torrent 0 has nothing left to do. *)
Lemma xf_idle : forall i F T l x y, describes sha1 i (F 0%nat) (T 0%nat) -> (forall n, apart n F T) -> (forall u, disk_ready xm_cwd (F u) xm_empty) -> Forall pop_ok l -> l <> [] -> forallb not_add (tl l) = true ->
  nth_error (pr_torrents (xm_run l)) 0 = Some x -> at_rest x -> ta_info (sy_actor x) = Some i ->
  requested (sy_trace x) <> [] -> xf_check xf_good (process_init xm_empty) l = true ->
  nth_error (pr_torrents (xm_run (firstn (List.length l - 1) l))) 0 = Some y -> sy_writer y <> [] ->
  let ops := followed_by l (fun _ => PStart 0) in
  (forall n, pop_ok (ops n)) /\
  (forall n, let s := state_at sha1 Debug xm_cwd xm_empty ops n in
     apart (List.length (pr_torrents s)) F T /\ (forall u, (u < List.length (pr_torrents s))%nat -> disk_ready xm_cwd (F u) xm_empty) /\ told sha1 F T s) /\
  never_stuck sha1 Debug xm_cwd xm_empty ops 0 /\
  (forall n x, torrent_at sha1 Debug xm_cwd xm_empty ops 0 n = Some x -> sy_workers x = 5%nat /\ (failed_so_far x <= 0)%N) /\
  (exists n x, torrent_at sha1 Debug xm_cwd xm_empty ops 0 n = Some x /\ requested (sy_trace x) <> []) /\
  forall m, (List.length l <= m)%nat -> pr_disk (state_at sha1 Debug xm_cwd xm_empty ops m) = pr_disk (xm_run l).
Proof.
  intros i F T l x y DE AP DR OL NL CH EX AR EI RQ G EY NW ops.
  assert (OK : forall n, pop_ok (ops n)) by (apply followed_ok; [exact OL|intros k; exact I]).
  assert (L0 : (0 < List.length l)%nat) by (destruct l; [contradiction|cbn; lia]).
  assert (SX : torrent_at sha1 Debug xm_cwd xm_empty ops 0 (List.length l) = Some x).
  { unfold torrent_at, ops. rewrite followed_first, firstn_all by lia. exact EX. }
  assert (SY : torrent_at sha1 Debug xm_cwd xm_empty ops 0 (List.length l - 1) = Some y).
  { unfold torrent_at, ops. rewrite followed_first by lia. exact EY. }
  assert (DX : pr_disk (state_at sha1 Debug xm_cwd xm_empty ops (List.length l)) = pr_disk (xm_run l)).
  { unfold ops. rewrite followed_first, firstn_all by lia. reflexivity. }
  pose proof AR as (_ & Q & _). pose proof (idle_later sha1 Debug xm_cwd xm_empty l x SX Q) as LATER. fold ops in LATER.
  assert (AT : forall n, (List.length l <= n)%nat -> exists D, torrent_at sha1 Debug xm_cwd xm_empty ops 0 n = Some (set_disk D x) /\
    pr_disk (state_at sha1 Debug xm_cwd xm_empty ops n) = pr_disk (xm_run l)).
  { intros n L. destruct (LATER (n - List.length l)%nat) as (D & E). exists D. replace (List.length l + (n - List.length l))%nat with n in E by lia.
    rewrite DX in E. exact E. }
  assert (ONE : forall n, (List.length (pr_torrents (state_at sha1 Debug xm_cwd xm_empty ops n)) <= 1)%nat).
  { intros n. unfold ops. destruct l as [|o l]; [contradiction|]. apply followed_one; auto. intros k. exact I. }
  assert (TOLD : forall n, told sha1 F T (state_at sha1 Debug xm_cwd xm_empty ops n)).
  { intros n. refine (proj1 (xf_told i F T l _ DE OL _ ONE _ n)); [intros k; exact I|]. intros k z HZ. destruct (LATER k) as (D & E & _). fold ops in HZ. rewrite HZ in E. injection E as ->. exact EI. }
  assert (GOOD : forall n z, (n <= List.length l)%nat -> torrent_at sha1 Debug xm_cwd xm_empty ops 0 n = Some z -> sy_workers z = 5%nat /\ (failed_so_far z <= 0)%N).
  { intros n z L HZ. pose proof (xf_checked _ _ n _ G L) as GN. unfold torrent_at, ops in HZ. rewrite followed_first in HZ by auto. unfold xf_good in GN. rewrite HZ in GN.
    apply andb_prop in GN as [G1 G2]. apply Nat.eqb_eq in G1. apply N.eqb_eq in G2. split; [auto|lia]. }
  split; [exact OK|]. split; [|split; [|split; [|split]]].
  - intros n. cbn zeta. split; [apply AP|]. split; [intros u _; apply DR|apply TOLD].
  - intros n z HZ. destruct (Nat.le_gt_cases (List.length l) n) as [L|L].
    + left. destruct (AT n L) as (D & E & _). rewrite HZ in E. injection E as ->. exact AR.
    + right. exists (List.length l - 1)%nat, y, x. split; [lia|]. split; [auto|]. split; [rewrite <- SX; f_equal; lia|].
      destruct AR as (_ & _ & _ & W). unfold agenda. rewrite W. congruence.
  - intros n z HZ. destruct (Nat.le_gt_cases n (List.length l)) as [L|L]; [apply (GOOD n z L HZ)|].
    destruct (AT n ltac:(lia)) as (D & E & _). rewrite HZ in E. injection E as ->. exact (GOOD _ x (le_n _) SX).
  - exists (List.length l), x. auto.
  - intros m L. destruct (AT m L) as (D & _ & E). exact E.
Qed.

(** The hypotheses of C68_eventually_complete hold of this execution, and so does its conclusion. *)
Example C68_example : (forall n, pop_ok (xf_ops n)) /\
  (forall n, let s := state_at sha1 Debug xm_cwd xm_empty xf_ops n in
     apart (List.length (pr_torrents s)) xf_F xf_T /\ (forall u, (u < List.length (pr_torrents s))%nat -> disk_ready xm_cwd (xf_F u) xm_empty) /\ told sha1 xf_F xf_T s) /\
  never_stuck sha1 Debug xm_cwd xm_empty xf_ops 0 /\
  (forall n x, torrent_at sha1 Debug xm_cwd xm_empty xf_ops 0 n = Some x -> sy_workers x = 5%nat /\ (failed_so_far x <= 0)%N) /\
  (exists n x, torrent_at sha1 Debug xm_cwd xm_empty xf_ops 0 n = Some x /\ requested (sy_trace x) <> []) /\
  forall m, (35 <= m)%nat -> pr_disk (state_at sha1 Debug xm_cwd xm_empty xf_ops m) [s2b "home"; s2b "x"] = Some (NFile xm_a).
Proof.
  assert (E : match nth_error (pr_torrents (xm_run xf_list)) 0 with
    | Some x => (sy_mail x, sy_queue x, sy_working x, sy_writer x, ta_info (sy_actor x), match requested (sy_trace x) with [] => false | _ => true end)
    | None => ([], [], [], [], None, false) end = ([], [], [], [], Some (xm_info (s2b "x") xm_a), true)) by (vm_compute; reflexivity).
  destruct (nth_error (pr_torrents (xm_run xf_list)) 0) as [x|] eqn:EX; [|discriminate E]. injection E as M Q K W EI RQ.
  assert (Z : match nth_error (pr_torrents (xm_run (firstn (List.length xf_list - 1) xf_list))) 0 with
    | Some y => match sy_writer y with [] => false | _ => true end
    | None => false end = true) by (vm_compute; reflexivity).
  destruct (nth_error (pr_torrents (xm_run (firstn (List.length xf_list - 1) xf_list))) 0) as [y|] eqn:EY; [|discriminate Z].
  assert (NW : sy_writer y <> []) by (destruct (sy_writer y); [discriminate Z|discriminate]).
  assert (NR : requested (sy_trace x) <> []) by (destruct (requested (sy_trace x)); [discriminate RQ|discriminate]).
  assert (OL : Forall pop_ok xf_list) by ops_ok.
  assert (NL : xf_list <> []) by discriminate.
  assert (CH : forallb not_add (tl xf_list) = true) by (vm_compute; reflexivity).
  assert (G : xf_check xf_good (process_init xm_empty) xf_list = true) by (vm_compute; reflexivity).
  assert (LE : List.length xf_list = 35%nat) by (vm_compute; reflexivity).
  assert (DX : pr_disk (xm_run xf_list) [s2b "home"; s2b "x"] = Some (NFile xm_a)) by (vm_compute; reflexivity).
  unfold xf_ops. revert OL NL CH EX NR G EY LE DX. generalize xf_list. clear Z RQ. intros l OL NL CH EX NR G EY LE DX.
  destruct (xf_idle _ xf_F xf_T l x y (xm_describes (s2b "x") xm_a xm_sane_x eq_refl) xf_apart ltac:(intros u f _; split; auto) OL NL CH EX (conj M (conj Q (conj K W))) EI NR G EY NW) as (H1 & H2 & H3 & H4 & H5 & H6).
  repeat (split; [assumption|]). intros m L. rewrite H6 by (rewrite LE; exact L). exact DX.
Qed.

(** For any list of steps after which torrent 0 asks for two pieces and has lost nothing. *)
Lemma xf_forever : forall l x, Forall pop_ok l -> l <> [] -> forallb not_add (tl l) = true ->
  nth_error (pr_torrents (xm_run l)) 0 = Some x -> asking_forever (xm_info (s2b "x") xm_a) 0 x ->
  xf_check (fun s => match nth_error (pr_torrents s) 0 with Some x => (sy_workers x =? 5)%nat | None => true end
      && match pr_disk s [s2b "home"; s2b "x"] with None => true | _ => false end) (process_init xm_empty) l = true ->
  let ops := followed_by l refusal in
  (forall n, pop_ok (ops n)) /\
  (forall n, let s := state_at sha1 Debug xm_cwd xm_empty ops n in
     apart (List.length (pr_torrents s)) xf_F xf_T /\ (forall u, (u < List.length (pr_torrents s))%nat -> disk_ready xm_cwd (xf_F u) xm_empty) /\ told sha1 xf_F xf_T s) /\
  never_stuck sha1 Debug xm_cwd xm_empty ops 0 /\
  (forall n x, torrent_at sha1 Debug xm_cwd xm_empty ops 0 n = Some x -> sy_workers x = 5%nat) /\
  (exists n0, forall n, (n0 <= n)%nat -> exists x x', torrent_at sha1 Debug xm_cwd xm_empty ops 0 n = Some x /\ torrent_at sha1 Debug xm_cwd xm_empty ops 0 (S n) = Some x' /\
     requested (sy_trace x) <> [] /\ agenda x' <> agenda x) /\
  forall n, pr_disk (state_at sha1 Debug xm_cwd xm_empty ops n) [s2b "home"; s2b "x"] = None.
Proof.
  intros l x OL NL CH EX AF G ops.
  assert (OT : forall k, pop_ok (refusal k)) by (intros k; unfold refusal; destruct (phase k) as [|[|ph]]; try exact I; intros ? ?; apply Permutation_refl).
  assert (OK : forall n, pop_ok (ops n)) by (apply followed_ok; auto).
  assert (SX : torrent_at sha1 Debug xm_cwd xm_empty ops 0 (List.length l) = Some x).
  { unfold torrent_at, ops. rewrite followed_first, firstn_all by lia. exact EX. }
  pose proof (asking_later sha1 Debug xm_cwd xm_empty l _ x SX AF) as LATER. fold ops in LATER.
  assert (ONE : forall n, (List.length (pr_torrents (state_at sha1 Debug xm_cwd xm_empty ops n)) <= 1)%nat).
  { intros n. unfold ops. destruct l as [|o l]; [contradiction|]. apply followed_one; auto.
    intros k. unfold refusal. destruct (phase k) as [|[|ph]]; reflexivity. }
  assert (TOLD : forall n, told sha1 xf_F xf_T (state_at sha1 Debug xm_cwd xm_empty ops n)).
  { intros n. refine (proj1 (xf_told _ xf_F xf_T l _ (xm_describes (s2b "x") xm_a xm_sane_x eq_refl) OL OT ONE _ n)). intros k y HY. destruct (LATER k) as (z & E & A & _). fold ops in HY. rewrite HY in E. injection E as <-. apply A. }
  assert (AT : forall n, (List.length l <= n)%nat -> exists y, torrent_at sha1 Debug xm_cwd xm_empty ops 0 n = Some y /\
     asking_forever (xm_info (s2b "x") xm_a) (phase (n - List.length l)) y /\
     pr_disk (state_at sha1 Debug xm_cwd xm_empty ops n) = pr_disk (state_at sha1 Debug xm_cwd xm_empty ops (List.length l)) /\
     exists z, torrent_at sha1 Debug xm_cwd xm_empty ops 0 (S n) = Some z /\ agenda z <> agenda y).
  { intros n L. destruct (LATER (n - List.length l)%nat) as (y & H). exists y.
    replace (List.length l + (n - List.length l))%nat with n in H by lia. exact H. }
  split; [exact OK|]. split; [|split; [|split; [|split]]].
  - intros n. cbn zeta. split; [apply xf_apart|]. split; [intros u _ f _; split; auto|apply TOLD].
  - intros n y HY. right. destruct (AT (Nat.max n (List.length l)) ltac:(lia)) as (u & HU & _ & _ & v & HV & CHG).
    exists (Nat.max n (List.length l)), u, v. split; [lia|]. auto.
  - intros n y HY. destruct (Nat.le_gt_cases (List.length l) n) as [L|L].
    + destruct (AT n L) as (u & HU & A & _). rewrite HY in HU. injection HU as <-. apply A.
    + pose proof (xf_checked _ _ n _ G ltac:(lia)) as GN. unfold torrent_at, ops in HY. rewrite followed_first in HY by lia. cbn beta in GN. rewrite HY in GN.
      apply andb_prop in GN as [G1 _]. apply Nat.eqb_eq. exact G1.
  - exists (List.length l). intros n L. destruct (AT n L) as (u & HU & A & _ & v & HV & CHG). exists u, v. split; [auto|]. split; [auto|]. split; [apply A|auto].
  - intros n.
    assert (Z : forall n, (n <= List.length l)%nat -> pr_disk (state_at sha1 Debug xm_cwd xm_empty ops n) [s2b "home"; s2b "x"] = None).
    { intros k L. pose proof (xf_checked _ _ k _ G L) as GN. unfold ops. rewrite followed_first by auto. apply andb_prop in GN as [_ GN].
      destruct (pr_disk (pr_run sha1 Debug xm_cwd (process_init xm_empty) (firstn k l)) [s2b "home"; s2b "x"]); [discriminate GN|auto]. }
    destruct (Nat.le_gt_cases (List.length l) n) as [L|L]; [|apply Z; lia].
    destruct (AT n L) as (_ & _ & _ & -> & _). apply Z. lia.
Qed.

(** C68: the bound on the failures is needed: nobody ever gives up. If from some moment on no peer accepts
    a connection, the same two pieces are requested again and again, without end, while all workers
    live, the agenda changes at every step, and the file is never written. *)
Theorem C68_gives_up_refuted : exists F T d ops t, (forall n, pop_ok (ops n)) /\
  (forall n, let s := state_at sha1 Debug xm_cwd d ops n in
     apart (List.length (pr_torrents s)) F T /\ (forall u, (u < List.length (pr_torrents s))%nat -> disk_ready xm_cwd (F u) d) /\ told sha1 F T s) /\
  never_stuck sha1 Debug xm_cwd d ops t /\
  (forall n x, torrent_at sha1 Debug xm_cwd d ops t n = Some x -> sy_workers x = 5%nat) /\
  (exists n0, forall n, (n0 <= n)%nat -> exists x x', torrent_at sha1 Debug xm_cwd d ops t n = Some x /\ torrent_at sha1 Debug xm_cwd d ops t (S n) = Some x' /\
     requested (sy_trace x) <> [] /\ agenda x' <> agenda x) /\
  exists f, F t = [f] /\ (0 < f_length f)%N /\ forall n, pr_disk (state_at sha1 Debug xm_cwd d ops n) (xm_cwd ++ f_path f) = None.
Proof.
  exists xf_F, xf_T, xm_empty, xf_refused, 0%nat.
  assert (E : match nth_error (pr_torrents (xm_run xf_begin)) 0 with
    | Some x => (sy_mail x, List.length (sy_queue x), sy_working x, sy_writer x, ta_info (sy_actor x), ta_pool (sy_actor x), sy_workers x, sy_dead x,
      match requested (sy_trace x) with [] => false | _ => true end, List.length (ta_peers (sy_actor x)),
      forallb (fun y => match ModelTracker.parse_socket_addr (ap_endpoint y) with Some _ => true | None => false end) (ta_peers (sy_actor x)),
      forallb (fun r => match ModelTracker.parse_socket_addr (rq_endpoint r) with Some _ => true | None => false end) (sy_queue x))
    | None => ([], 0%nat, [], [], None, None, 0%nat, false, false, 0%nat, false, false) end
    = ([], 2%nat, [], [], Some (xm_info (s2b "x") xm_a), Some [], 5%nat, false, true, 11%nat, true, true)) by (vm_compute; reflexivity).
  destruct (nth_error (pr_torrents (xm_run xf_begin)) 0) as [x|] eqn:EX; [|discriminate E].
  injection E as M Q K W EI EP W5 D RQ NP AP AQ.
  assert (AF : asking_forever (xm_info (s2b "x") xm_a) 0 x).
  { unfold asking_forever. split; [auto|]. split; [auto|]. split; [auto|]. split; [destruct (ta_peers (sy_actor x)); [discriminate NP|discriminate]|].
    split; [auto|]. split; [auto|]. split; [destruct (requested (sy_trace x)); [discriminate RQ|discriminate]|].
    split; [intros y Y; rewrite forallb_forall in AP; specialize (AP y Y); destruct (ModelTracker.parse_socket_addr (ap_endpoint y)); [discriminate|discriminate AP]|].
    destruct (sy_queue x) as [|r [|r' [|]]]; try discriminate Q. cbn [forallb] in AQ. apply andb_prop in AQ as [A1 A2]. apply andb_prop in A2 as [A2 _].
    exists r, r'. split; [destruct (ModelTracker.parse_socket_addr (rq_endpoint r)); [discriminate|discriminate A1]|].
    split; [destruct (ModelTracker.parse_socket_addr (rq_endpoint r')); [discriminate|discriminate A2]|]. auto. }
  assert (OL : Forall pop_ok xf_begin) by ops_ok.
  assert (NL : xf_begin <> []) by discriminate.
  assert (CH : forallb not_add (tl xf_begin) = true) by (vm_compute; reflexivity).
  assert (G : xf_check (fun s => match nth_error (pr_torrents s) 0 with Some x => (sy_workers x =? 5)%nat | None => true end
      && match pr_disk s [s2b "home"; s2b "x"] with None => true | _ => false end) (process_init xm_empty) xf_begin = true) by (vm_compute; reflexivity).
  unfold xf_refused. revert OL NL CH EX G. generalize xf_begin. clear -AF. intros l OL NL CH EX G.
  destruct (xf_forever l x OL NL CH EX AF G) as (H1 & H2 & H3 & H4 & H5 & H6). repeat (split; [assumption|]).
  exists {| f_path := [s2b "x"]; f_length := 5%N |}. split; [reflexivity|]. split; [reflexivity|]. exact H6.
Qed.
Print Assumptions C68_gives_up_refuted.
