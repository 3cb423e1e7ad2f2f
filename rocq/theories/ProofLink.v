(** ProofLink: proofs for PropLink *)
From Coq Require Import Permutation Lia.
From Verif Require Import Base Utf8 ModelBencode ModelMessages ModelTorrent ModelWriter ModelTracker ModelStream ModelPeer ModelLive
  ModelActors ModelCache ModelMain ProofBase SpecTorrent SpecWriter ProofWriter SpecPieces ProofPieces SpecPeer ProofPeer SpecSystem ProofSystem SpecSession ProofSession SpecMain ProofMain
  SpecWhole ProofWhole SpecForever ProofForever SpecLive ProofLive ProofAnswers SpecSeeds ProofSeeds SpecLink.

(** ** Every tracker is asked *)

Lemma reg_zero : forall t l, (forall r, In r l -> rg_torrent r <> t) -> reg_count t l = 0%nat.
Proof.
  intros t l H. unfold reg_count. induction l as [|r l IH]; [auto|]. cbn [filter].
  rewrite (proj2 (Nat.eqb_neq (rg_torrent r) t)) by (apply H; left; auto). apply IH. intros r' I. apply H. right. auto.
Qed.
Lemma reg_some : forall t l, reg_count t l <> 0%nat -> exists r, In r l /\ rg_torrent r = t.
Proof.
  intros t l H. unfold reg_count in H. induction l as [|r l IH]; [contradiction|]. cbn [filter] in H.
  destruct (Nat.eqb_spec (rg_torrent r) t) as [E|E]; [exists r; split; [left; auto|auto]|].
  destruct (IH H) as (r' & I & E'). exists r'. split; [right; auto|auto].
Qed.

(** ** One tracker: the peers it has still to report *)

Definition peers_of (t : nat) (x : option tracker_actor) : list peer_endpoint := match x with Some x => tracker_peers t x | None => [] end.
Definition pending_of (ks : list nat) (t : nat) (s : process) : list peer_endpoint :=
  flat_map (fun k => peers_of t (nth_error (pr_trackers s) k)) ks.

Lemma peers_idle : forall s o t k x, (forall j e, o <> PLookup k j e) -> (forall j c, o <> PReport k j c) ->
  tracker_peers t (tracker_after s o k x) = tracker_peers t x.
Proof.
  intros s o t k x NL NR. destruct o; cbn [tracker_after]; auto.
  - destruct (pr_interface s); [auto|]. unfold forward. destruct (tk_alive x && negb (full k)); auto.
  - destruct (k =? k0)%nat; [|auto]. destruct (tk_mail x); [auto|]. unfold tracker_peers. cbn [tk_jobs].
    rewrite flat_map_app. cbn. apply app_nil_r.
  - destruct (Nat.eqb_spec k k0) as [<-|]; [|auto]. exfalso. eapply NL. reflexivity.
  - destruct (Nat.eqb_spec k k0) as [<-|]; [|auto]. exfalso. eapply NR. reflexivity.
Qed.
Lemma peers_lookup : forall s t k j e x u, nth_error (pr_trackers s) k = Some x -> nth_error tracker_urls k = Some u -> tk_url x = u ->
  tk_alive x = true -> tk_alive (tracker_after s (PLookup k j e) k x) = true ->
  Permutation (tracker_peers t (tracker_after s (PLookup k j e) k x)) (tracker_peers t x ++ peers_for t (lookup_at s (PLookup k j e))).
Proof.
  intros s t k j e x u X U EU AL AL'. cbn [tracker_after lookup_at] in *. rewrite Nat.eqb_refl, X in *.
  destruct (nth_error (tk_jobs x) j) as [[r|]|] eqn:J; try (cbn [peers_for flat_map]; rewrite app_nil_r; auto; fail).
  assert (PO : forall l, (lookup e u (rg_hash r) = Ret (Ok l) \/ (l = [] /\ forall l', lookup e u (rg_hash r) <> Ret (Ok l'))) ->
     peers_for t [{| ld_tracker := k; ld_torrent := rg_torrent r; ld_hash := rg_hash r; ld_env := e |}] = job_peers t (Reporting r l))
    by (intros l HL; apply (peers_for_one t k r e u l U HL)).
  unfold tracker_peers. rewrite EU in *. destruct (lookup e u (rg_hash r)) as [[l|er]| |] eqn:LE.
  - rewrite (PO l) by auto. cbn [set_jobs tk_jobs].
    rewrite (jobs_update t _ _ _ (Reporting r l) J), (jobs_perm t _ _ _ J). cbn [job_peers app]. apply Permutation_app_comm.
  - rewrite (PO []) by (right; split; [auto|intros; congruence]). cbn [set_jobs tk_jobs].
    rewrite (jobs_perm t _ _ _ J). cbn [job_peers app]. destruct (rg_torrent r =? t)%nat; rewrite app_nil_r; auto.
  - discriminate.
  - cbn [peers_for flat_map]. rewrite app_nil_r. auto.
Qed.
Lemma peers_report : forall s t k j c x, nth_error (pr_trackers s) k = Some x ->
  exists gone, new_mail s (PReport k j c) t = map endpoint (filter (chosen (PReport k j c)) gone) /\
    Permutation (gone ++ tracker_peers t (tracker_after s (PReport k j c) k x)) (tracker_peers t x).
Proof.
  intros s t k j c x X. cbn [tracker_after new_mail]. rewrite Nat.eqb_refl, X.
  destruct (nth_error (tk_jobs x) j) as [[r|r [|e l]]|] eqn:J; try (exists []; split; [reflexivity|cbn [app]; auto; fail]).
  - exists []. split; [reflexivity|]. cbn [app]. unfold tracker_peers. cbn [set_jobs tk_jobs]. rewrite (jobs_perm t _ _ _ J). cbn [job_peers].
    destruct (rg_torrent r =? t)%nat; auto.
  - exists (if (rg_torrent r =? t)%nat then [e] else []). split.
    + destruct (rg_torrent r =? t)%nat; [|reflexivity]. cbn [andb filter chosen]. destruct (is_reachable c (endpoint e)); reflexivity.
    + unfold tracker_peers. cbn [set_jobs tk_jobs]. rewrite (jobs_update t _ _ _ (Reporting r l) J), (jobs_perm t _ _ _ J). cbn [job_peers].
      destruct (rg_torrent r =? t)%nat; auto.
Qed.
(** A job with peers to report is still there, or one peer less is to be reported. *)
Lemma job_moves : forall s o t k x r e l, nth_error (pr_trackers s) k = Some x -> tk_alive (tracker_after s o k x) = true ->
  In (Reporting r (e :: l)) (tk_jobs x) -> rg_torrent r = t ->
  In (Reporting r (e :: l)) (tk_jobs (tracker_after s o k x)) \/ (List.length (tracker_peers t (tracker_after s o k x)) < List.length (tracker_peers t x))%nat.
Proof.
  intros s o t k x r e l X AL I E.
  assert (Rm : forall j y, nth_error (tk_jobs x) j = Some y -> (exists i, nth_error (tk_jobs x) i = Some (Reporting r (e :: l)) /\ i <> j) \/ y = Reporting r (e :: l)).
  { intros j y J. apply In_nth_error in I as (i & I). destruct (Nat.eq_dec i j) as [->|N]; [right; congruence|left; eauto]. }
  assert (Keep : forall j y i, nth_error (tk_jobs x) j = Some y -> nth_error (tk_jobs x) i = Some (Reporting r (e :: l)) -> i <> j ->
    In (Reporting r (e :: l)) (remove_nth j (tk_jobs x))).
  { intros j. generalize (tk_jobs x). induction j as [|j IH]; intros [|z q] y i H1 H2 N; try discriminate; cbn [remove_nth].
    - destruct i; [lia|]. cbn in H2. apply nth_error_In in H2. auto.
    - destruct i; [left; cbn in H2; congruence|]. right. cbn in H1, H2. eapply IH; eauto. }
  assert (Upd : forall j y f, nth_error (tk_jobs x) j = Some y -> In (Reporting r (e :: l)) (remove_nth j (tk_jobs x)) ->
    In (Reporting r (e :: l)) (update_nth j f (tk_jobs x))).
  { intros j y f J H. apply (Permutation_in _ (Permutation_sym (update_perm _ j f _ _ J))). right. auto. }
  destruct o; cbn [tracker_after] in *; auto.
  - left. destruct (pr_interface s); [auto|]. unfold forward. destruct (tk_alive x && negb (full k)); auto.
  - left. destruct (k =? k0)%nat; [|auto]. destruct (tk_mail x); [auto|]. cbn [tk_jobs]. apply in_or_app. auto.
  - left. destruct (k =? k0)%nat; [|auto]. destruct (nth_error (tk_jobs x) j) as [[r0|]|] eqn:J; auto.
    destruct (Rm j _ J) as [(i & I' & N)|Y]; [|discriminate]. pose proof (Keep _ _ _ J I' N).
    destruct (lookup e0 (tk_url x) (rg_hash r0)) as [[]| |]; cbn [set_jobs tk_jobs]; auto; [|discriminate]. eapply Upd; eauto.
  - destruct (k =? k0)%nat; [|auto]. destruct (nth_error (tk_jobs x) j) as [[r0|r0 [|e0 l0]]|] eqn:J; auto.
    + left. destruct (Rm j _ J) as [(i & I' & N)|Y]; [|discriminate]. cbn [set_jobs tk_jobs]. eauto.
    + destruct (Rm j _ J) as [(i & I' & N)|Y].
      * left. cbn [set_jobs tk_jobs]. eapply Upd; eauto.
      * right. injection Y as -> -> ->. unfold tracker_peers. cbn [set_jobs tk_jobs].
        rewrite (Permutation_length (jobs_update t _ _ _ (Reporting r l) J)), (Permutation_length (jobs_perm t _ _ _ J)).
        cbn [job_peers]. rewrite (proj2 (Nat.eqb_eq _ _) E), !app_length. cbn [List.length]. lia.
Qed.

Lemma by_app : forall ks a b, by_trackers ks (a ++ b) = by_trackers ks a ++ by_trackers ks b.
Proof. intros. unfold by_trackers. apply filter_app. Qed.
Lemma by_one : forall ks k l, (forall y, In y l -> ld_tracker y = k) -> by_trackers ks l = if existsb (Nat.eqb k) ks then l else [].
Proof.
  intros ks k l H. unfold by_trackers. induction l as [|y l IH]; [destruct (existsb (Nat.eqb k) ks); auto|].
  cbn [filter]. rewrite (H y) by (left; auto). rewrite IH by (intros z Z; apply H; right; auto). destruct (existsb (Nat.eqb k) ks); auto.
Qed.
Lemma lookup_at_one : forall s k j e y, In y (lookup_at s (PLookup k j e)) -> ld_tracker y = k.
Proof.
  intros s k j e y I. cbn [lookup_at] in I. destruct (nth_error (pr_trackers s) k) as [x|]; [|destruct I].
  destruct (nth_error (tk_jobs x) j) as [[r|]|]; try (destruct I; fail).
  destruct (lookup e (tk_url x) (rg_hash r)) as [[]| |]; try (destruct I as [<-|[]]; reflexivity). destruct I.
Qed.
Lemma existsb_in : forall k ks, existsb (Nat.eqb k) ks = true <-> In k ks.
Proof.
  intros k ks. rewrite existsb_exists. split; [intros (j & I & E); apply Nat.eqb_eq in E; subst; auto|].
  intros I. exists k. split; [auto|apply Nat.eqb_refl].
Qed.

(** Only tracker [k] changes what it has to report. *)
Lemma pending_of_in : forall sha1 p cwd s o t ks k, NoDup ks -> In k ks ->
  (forall k' x, k' <> k -> tracker_peers t (tracker_after s o k' x) = tracker_peers t x) ->
  exists rest, Permutation (pending_of ks t s) (peers_of t (nth_error (pr_trackers s) k) ++ rest) /\
    Permutation (pending_of ks t (pr_step sha1 p cwd s o)) (peers_of t (option_map (tracker_after s o k) (nth_error (pr_trackers s) k)) ++ rest).
Proof.
  intros sha1 p cwd s o t ks k ND I H. apply in_split in I as (a & b & ->).
  exists (pending_of (a ++ b) t s).
  assert (E : forall l, ~ In k l -> pending_of l t (pr_step sha1 p cwd s o) = pending_of l t s).
  { induction l as [|j l IH]; intros NI; [auto|]. cbn [pending_of flat_map]. unfold pending_of in IH. rewrite IH by (intros X; apply NI; right; auto).
    f_equal. rewrite tracker_nth. destruct (nth_error (pr_trackers s) j); cbn; [|auto]. apply H. intros ->. apply NI. left. auto. }
  assert (NI : ~ In k (a ++ b)) by (apply NoDup_remove_2; auto).
  assert (Sp : forall s, pending_of (a ++ k :: b) t s = pending_of a t s ++ peers_of t (nth_error (pr_trackers s) k) ++ pending_of b t s).
  { intros s0. unfold pending_of. rewrite flat_map_app. reflexivity. }
  assert (Sp2 : forall s, pending_of (a ++ b) t s = pending_of a t s ++ pending_of b t s) by (intros s0; unfold pending_of; apply flat_map_app).
  rewrite !Sp, Sp2. split; [apply Permutation_app_swap_app|].
  rewrite (E a), (E b) by (intros X; apply NI; apply in_or_app; auto). rewrite tracker_nth. apply Permutation_app_swap_app.
Qed.
Lemma pending_of_same : forall sha1 p cwd s o t ks,
  (forall k x, In k ks -> nth_error (pr_trackers s) k = Some x -> tracker_peers t (tracker_after s o k x) = tracker_peers t x) ->
  pending_of ks t (pr_step sha1 p cwd s o) = pending_of ks t s.
Proof.
  intros sha1 p cwd s o t ks H. induction ks as [|k ks IH]; [auto|]. cbn [pending_of flat_map]. unfold pending_of in IH.
  rewrite IH by (intros j x I; apply H; right; auto). f_equal. rewrite tracker_nth.
  destruct (nth_error (pr_trackers s) k) eqn:E; cbn; [|auto]. apply H; [left; auto|auto].
Qed.

Lemma pending_of_step : forall sha1 p cwd d ops s o t ks, started sha1 p cwd d ops s -> NoDup ks ->
  (forall k x, In k ks -> nth_error (pr_trackers s) k = Some x -> tk_alive x = true) ->
  (forall k x, In k ks -> nth_error (pr_trackers (pr_step sha1 p cwd s o)) k = Some x -> tk_alive x = true) ->
  exists gone rest, Permutation (new_mail s o t) (map endpoint (filter (chosen o) gone) ++ rest) /\
    Permutation (gone ++ pending_of ks t (pr_step sha1 p cwd s o)) (pending_of ks t s ++ peers_for t (by_trackers ks (lookup_at s o))).
Proof.
  intros sha1 p cwd d ops s o t ks ST ND AL AL'.
  assert (Same : (forall k x, In k ks -> tracker_peers t (tracker_after s o k x) = tracker_peers t x) -> by_trackers ks (lookup_at s o) = [] ->
    exists gone rest, Permutation (new_mail s o t) (map endpoint (filter (chosen o) gone) ++ rest) /\
    Permutation (gone ++ pending_of ks t (pr_step sha1 p cwd s o)) (pending_of ks t s ++ peers_for t (by_trackers ks (lookup_at s o)))).
  { intros H1 H2. exists [], (new_mail s o t). split; [reflexivity|]. rewrite H2, pending_of_same by auto. cbn. rewrite app_nil_r. auto. }
  assert (Quiet : (forall k j e, o <> PLookup k j e) -> (forall k j c, o <> PReport k j c) -> forall k x, In k ks -> tracker_peers t (tracker_after s o k x) = tracker_peers t x).
  { intros H1 H2 k x _. apply peers_idle; auto. }
  destruct o; try (apply Same; [apply Quiet; discriminate|reflexivity]).
  - assert (Oth : forall k' x, k' <> k -> tracker_peers t (tracker_after s (PLookup k j e) k' x) = tracker_peers t x).
    { intros k' x N. apply peers_idle; intros; congruence. }
    rewrite (by_one ks k) in * by (intros y Y; eapply lookup_at_one; eauto).
    destruct (existsb (Nat.eqb k) ks) eqn:IK.
    + apply existsb_in in IK. destruct (nth_error (pr_trackers s) k) as [x|] eqn:X.
      2:{ exists [], []. split; [reflexivity|]. rewrite pending_of_same.
          - cbn [lookup_at]. rewrite X. cbn. rewrite app_nil_r. auto.
          - intros k' x I E. destruct (Nat.eq_dec k' k) as [->|N]; [congruence|auto]. }
      destruct (pending_of_in sha1 p cwd s (PLookup k j e) t ks k ND IK Oth) as (rest & P1 & P2).
      rewrite X in P1, P2. cbn [option_map peers_of] in P1, P2.
      destruct (tracker_facts _ _ _ _ _ _ ST) as (_ & HT & _). destruct (HT k x X) as (U & _).
      exists [], []. split; [reflexivity|]. cbn [app].
      pose proof (peers_lookup s t k j e x _ X U eq_refl (AL k x IK X)) as PL.
      rewrite P1, P2, PL.
      * rewrite <- !app_assoc. apply Permutation_app_head, Permutation_app_comm.
      * apply (AL' k); [auto|]. rewrite tracker_nth, X. reflexivity.
    + apply Same; [|auto]. intros k' x I. apply Oth. intros ->. apply existsb_in in I. congruence.
  - assert (Oth : forall k' x, k' <> k -> tracker_peers t (tracker_after s (PReport k j connects) k' x) = tracker_peers t x).
    { intros k' x N. apply peers_idle; intros; congruence. }
    destruct (existsb (Nat.eqb k) ks) eqn:IK.
    + apply existsb_in in IK. destruct (nth_error (pr_trackers s) k) as [x|] eqn:X.
      2:{ exists [], []. cbn [new_mail]. rewrite X. split; [reflexivity|]. rewrite pending_of_same.
          - cbn. rewrite app_nil_r. auto.
          - intros k' x I E. destruct (Nat.eq_dec k' k) as [->|N]; [congruence|auto]. }
      destruct (pending_of_in sha1 p cwd s (PReport k j connects) t ks k ND IK Oth) as (rest & P1 & P2).
      rewrite X in P1, P2. cbn [option_map peers_of] in P1, P2.
      destruct (peers_report s t k j connects x X) as (gone & NM & PG).
      exists gone, []. split; [rewrite app_nil_r, NM; reflexivity|].
      rewrite P1, P2, <- PG. cbn [lookup_at by_trackers filter peers_for flat_map]. rewrite app_nil_r, app_assoc. reflexivity.
    + apply Same; [|auto]. intros k' x I. apply Oth. intros ->. apply existsb_in in I. congruence.
Qed.

Section Execution.
  Variable sha1 : bytes -> bytes.
  Variable p : profile.
  Variable cwd : loc.
  Variable d : fs.
  Variable ops : nat -> pop.
  Hypothesis OK : forall n, pop_ok (ops n).
  Let st := state_at sha1 p cwd d ops.
  Let done := looked_up sha1 p cwd d ops.
  Let R := fun n => state_started sha1 p cwd d ops n OK.

  Lemma accepted_later : forall n m t h, (n <= m)%nat -> nth_error (accepted p (map ops (seq 0 n))) t = Some h ->
    nth_error (accepted p (map ops (seq 0 m))) t = Some h.
  Proof.
    intros n m t h L H. replace m with (n + (m - n))%nat by lia. rewrite seq_app, map_app, accepted_app, nth_error_app1; [auto|].
    apply nth_error_Some. congruence.
  Qed.
  (** Registrations of one torrent, at any two moments, are the same. *)
  Lemma same_reg : forall n m r r', known p (map ops (seq 0 n)) r -> known p (map ops (seq 0 m)) r' -> rg_torrent r = rg_torrent r' -> r = r'.
  Proof.
    intros n m [h t] [h' t'] K K' E. unfold known in *. cbn [rg_torrent rg_hash] in *. subst t'. f_equal.
    apply (accepted_later n (Nat.max n m)) in K; [|lia]. apply (accepted_later m (Nat.max n m)) in K'; [|lia]. congruence.
  Qed.
  Lemma torrents_grow : forall n, (List.length (pr_torrents (st n)) <= List.length (pr_torrents (st (S n))))%nat.
  Proof. intros n. unfold st. rewrite state_S, torrents_length. lia. Qed.
  Lemma torrents_later : forall n m, (n <= m)%nat -> (List.length (pr_torrents (st n)) <= List.length (pr_torrents (st m)))%nat.
  Proof. intros n m L. induction L as [|m L IH]; [auto|]. pose proof (torrents_grow m). lia. Qed.

  Lemma interface_mono : forall n t, (t < List.length (pr_torrents (st n)))%nat ->
    (reg_count t (pr_interface (st (S n))) <= reg_count t (pr_interface (st n)))%nat.
  Proof.
    intros n t L. unfold st. rewrite state_S, interface_step. fold st. destruct (ops n); auto.
    - rewrite reg_count_app. destruct (accepts p raw); [destruct full|]; try (rewrite reg_count_one; cbn [rg_torrent]);
        try (rewrite (proj2 (Nat.eqb_neq _ _)) by lia); cbn; lia.
    - destruct (pr_interface (st n)) as [|r l]; [auto|]. cbn [tl]. change (r :: l) with ([r] ++ l). rewrite reg_count_app. lia.
  Qed.
  Lemma mail_mono : forall n t k x y, reg_count t (pr_interface (st n)) = 0%nat -> nth_error (pr_trackers (st n)) k = Some x ->
    nth_error (pr_trackers (st (S n))) k = Some y -> (reg_count t (tk_mail y) <= reg_count t (tk_mail x))%nat.
  Proof.
    intros n t k x y Z X Y. unfold st in Y. rewrite state_S, tracker_nth in Y. fold st in Y. rewrite X in Y. injection Y as <-.
    destruct (ops n); cbn [tracker_after]; auto.
    - destruct (pr_interface (st n)) as [|r l]; [auto|]. unfold forward. destruct (tk_alive x && negb (full k)); [|auto].
      cbn [tracker_push tk_mail]. rewrite reg_count_app. change (r :: l) with ([r] ++ l) in Z. rewrite reg_count_app in Z. lia.
    - destruct (k =? k0)%nat; [|auto]. destruct (tk_mail x) as [|r l] eqn:E; [rewrite E; auto|]. cbn [tk_mail].
      change (r :: l) with ([r] ++ l). rewrite reg_count_app. lia.
    - destruct (k =? k0)%nat; [|auto]. destruct (nth_error (tk_jobs x) j) as [[r|]|]; auto.
      destruct (lookup e (tk_url x) (rg_hash r)) as [[]| |]; auto. cbn [tracker_die tk_mail]. cbn. lia.
    - destruct (k =? k0)%nat; [|auto]. destruct (nth_error (tk_jobs x) j) as [[|r [|]]|]; auto.
  Qed.
  Lemma interface_later : forall n m t, (t < List.length (pr_torrents (st n)))%nat -> (n <= m)%nat ->
    reg_count t (pr_interface (st n)) = 0%nat -> reg_count t (pr_interface (st m)) = 0%nat.
  Proof.
    intros n m t L LE Z. induction LE as [|m LE IH]; [auto|]. pose proof (torrents_later n m LE).
    pose proof (interface_mono m t ltac:(lia)). lia.
  Qed.
  Lemma tracker_there : forall n k, (k < List.length tracker_urls)%nat -> exists x, nth_error (pr_trackers (st n)) k = Some x.
  Proof.
    intros n k L. destruct (tracker_facts _ _ _ _ _ _ (R n)) as (_ & _ & LE). fold st in LE.
    destruct (nth_error (pr_trackers (st n)) k) eqn:E; [eauto|]. apply nth_error_None in E. lia.
  Qed.
  Lemma mail_later : forall n m t k x y, (t < List.length (pr_torrents (st n)))%nat -> (k < List.length tracker_urls)%nat -> (n <= m)%nat ->
    reg_count t (pr_interface (st n)) = 0%nat ->
    nth_error (pr_trackers (st n)) k = Some x -> nth_error (pr_trackers (st m)) k = Some y -> reg_count t (tk_mail x) = 0%nat -> reg_count t (tk_mail y) = 0%nat.
  Proof.
    intros n m t k x y L KL LE ZI X Y Z. revert y Y. induction LE as [|m LE IH]; intros y Y; [congruence|].
    destruct (tracker_there m k KL) as (z & HZ). specialize (IH z HZ).
    pose proof (mail_mono m t k z y (interface_later n m t L LE ZI) HZ Y). lia.
  Qed.
  Lemma between_later : forall n m k t, (n <= m)%nat -> (List.length (between k t (done n)) <= List.length (between k t (done m)))%nat.
  Proof.
    intros n m k t L. unfold done, looked_up. replace m with (n + (m - n))%nat by lia.
    rewrite seq_app, map_app, lookups_app, between_app, app_length. lia.
  Qed.

  Lemma c84_asked : forall ks k t n0, (forall n, never_full (ops n)) -> attended sha1 p cwd d ops ks -> In k ks ->
    (k < List.length tracker_urls)%nat -> (t < List.length (pr_torrents (st n0)))%nat ->
    exists n, (n0 <= n)%nat /\ forall m, (n <= m)%nat -> List.length (between k t (done m)) = 1%nat.
  Proof.
    intros ks k t n0 NF [AI AT] IK KL L. fold st in AI, AT.
    assert (Sum : forall m x, (n0 <= m)%nat -> nth_error (pr_trackers (st m)) k = Some x ->
      (reg_count t (pr_interface (st m)) + reg_count t (tk_mail x) + ask_count t (tk_jobs x) + List.length (between k t (done m)) = 1)%nat).
    { intros m x LM X. destruct (ask_inv _ _ _ _ _ _ (R m) k x t X) as [_ S]. fold st in S. pose proof (torrents_later n0 m LM).
      rewrite (proj2 (Nat.ltb_lt _ _)) in S by lia. apply S.
      - apply Forall_forall. intros o O. apply in_map_iff in O as (j & <- & _). auto.
      - apply (AT k m x IK X). }
    assert (A : exists n1, (n0 <= n1)%nat /\ reg_count t (pr_interface (st n1)) = 0%nat).
    { destruct (Nat.eq_dec (reg_count t (pr_interface (st n0))) 0) as [Z|NZ]; [exists n0; auto|].
      destruct (reg_some _ _ NZ) as (r & IR & E). destruct (AI n0 r IR) as (m & LM & NI). exists m. split; [auto|].
      apply reg_zero. intros r' I' E'. apply NI.
      destruct (tracker_facts _ _ _ _ _ _ (R n0)) as (K1 & _). destruct (tracker_facts _ _ _ _ _ _ (R m)) as (K2 & _).
      rewrite (same_reg n0 m r r' (K1 r IR) (K2 r' I')) by congruence. auto. }
    destruct A as (n1 & L1 & Z1). pose proof (torrents_later n0 n1 L1) as T1.
    assert (B : exists n2 x, (n1 <= n2)%nat /\ nth_error (pr_trackers (st n2)) k = Some x /\ reg_count t (tk_mail x) = 0%nat).
    { destruct (tracker_there n1 k KL) as (x & X). destruct (Nat.eq_dec (reg_count t (tk_mail x)) 0) as [Z|NZ]; [exists n1, x; auto|].
      destruct (reg_some _ _ NZ) as (r & IR & E). destruct (AT k n1 x IK X) as (_ & AM & _). destruct (AM r IR) as (m & y & LM & Y & NI).
      exists m, y. split; [auto|]. split; [auto|]. apply reg_zero. intros r' I' E'. apply NI.
      destruct (tracker_facts _ _ _ _ _ _ (R n1)) as (_ & K1 & _). destruct (tracker_facts _ _ _ _ _ _ (R m)) as (_ & K2 & _).
      destruct (K1 k x X) as (_ & M1 & _). destruct (K2 k y Y) as (_ & M2 & _).
      rewrite (same_reg n1 m r r' (M1 r IR) (M2 r' I')) by congruence. auto. }
    destruct B as (n2 & x & L2 & X & Z2). pose proof (interface_later n1 n2 t ltac:(lia) L2 Z1) as Z1'. pose proof (torrents_later n1 n2 L2) as T2.
    assert (C : exists n3 y, (n2 <= n3)%nat /\ nth_error (pr_trackers (st n3)) k = Some y /\ ask_count t (tk_jobs y) = 0%nat).
    { destruct (Nat.eq_dec (ask_count t (tk_jobs x)) 0) as [Z|NZ]; [exists n2, x; auto|].
      destruct (reg_some _ _ NZ) as (r & IR & E). apply in_flat_map in IR as (j & IJ & IR).
      destruct j as [r0|]; [|destruct IR]. destruct IR as [->|[]].
      destruct (AT k n2 x IK X) as (_ & _ & AJ). destruct (AJ _ IJ) as (m & y & LM & Y & NI).
      exists m, y. split; [auto|]. split; [auto|]. apply reg_zero. intros r' I' E'. apply NI. apply in_flat_map in I' as (j' & IJ' & IR').
      destruct j' as [r0|]; [|destruct IR']. destruct IR' as [->|[]].
      destruct (tracker_facts _ _ _ _ _ _ (R n2)) as (_ & K1 & _). destruct (tracker_facts _ _ _ _ _ _ (R m)) as (_ & K2 & _).
      destruct (K1 k x X) as (_ & _ & M1 & _). destruct (K2 k y Y) as (_ & _ & M2 & _).
      rewrite (same_reg n2 m r r' (M1 _ IJ) (M2 _ IJ')) by congruence. auto. }
    destruct C as (n3 & y & L3 & Y & Z3). exists n3. split; [lia|]. intros m LM.
    pose proof (Sum n3 y ltac:(lia) Y) as S3. pose proof (interface_later n2 n3 t ltac:(lia) L3 Z1') as Z1''.
    pose proof (mail_later n2 n3 t k x y ltac:(lia) KL L3 Z1' X Y Z2) as Z2'.
    pose proof (between_later n3 m k t LM). pose proof (c55_once _ _ _ _ _ _ k t (R m)) as ON. fold (looked_up sha1 p cwd d ops m) in ON. fold done in ON. lia.
  Qed.
  (** ** Every reachable peer in an answer is reported *)

  Lemma done_S : forall n, done (S n) = done n ++ lookup_at (st n) (ops n).
  Proof. intros n. unfold done, looked_up. rewrite seq_S, map_app, lookups_app. cbn [map lookups]. rewrite app_nil_r. reflexivity. Qed.

  Lemma asked_all : forall ks t n0, (forall n, never_full (ops n)) -> attended sha1 p cwd d ops ks ->
    (forall k, In k ks -> (k < List.length tracker_urls)%nat) -> (t < List.length (pr_torrents (st n0)))%nat ->
    exists n, (n0 <= n)%nat /\ forall k m, In k ks -> (n <= m)%nat -> List.length (between k t (done m)) = 1%nat.
  Proof.
    intros ks t n0 NF AT KL L. assert (H : forall l, incl l ks -> exists n, (n0 <= n)%nat /\ forall k m, In k l -> (n <= m)%nat -> List.length (between k t (done m)) = 1%nat).
    { induction l as [|k l IH]; intros I; [exists n0; split; [auto|intros k m []]|].
      destruct IH as (n & LN & H); [intros j J; apply I; right; auto|].
      destruct (c84_asked ks k t n0 NF AT (I k (or_introl eq_refl)) (KL k (I k (or_introl eq_refl))) L) as (n' & LN' & H').
      exists (Nat.max n n'). split; [lia|]. intros j m [->|J] LM; [apply H'; lia|apply H; [auto|lia]]. }
    apply (H ks). apply incl_refl.
  Qed.

  (** Once all of them have been asked there are no further answers. *)
  Lemma no_more : forall ks t n, (forall k m, In k ks -> (n <= m)%nat -> List.length (between k t (done m)) = 1%nat) ->
    forall m, (n <= m)%nat -> peers_for t (by_trackers ks (lookup_at (st m) (ops m))) = [].
  Proof.
    intros ks t n H m L.
    assert (N : forall y, In y (by_trackers ks (lookup_at (st m) (ops m))) -> ld_torrent y <> t).
    { intros y I E. unfold by_trackers in I. apply filter_In in I as [I EX]. apply existsb_in in EX.
      pose proof (H _ m EX L) as B. pose proof (H _ (S m) EX ltac:(lia)) as B'. rewrite done_S, between_app, app_length, B in B'.
      assert (In y (between (ld_tracker y) t (lookup_at (st m) (ops m)))) as X.
      { unfold between. apply filter_In. split; [auto|]. rewrite Nat.eqb_refl. apply Nat.eqb_eq in E. rewrite E. auto. }
      destruct (between (ld_tracker y) t (lookup_at (st m) (ops m))); [destruct X|cbn in B'; lia]. }
    induction (by_trackers ks (lookup_at (st m) (ops m))) as [|y l IH]; [auto|]. cbn [peers_for flat_map].
    rewrite (proj2 (Nat.eqb_neq (ld_torrent y) t)) by (apply N; left; auto). apply IH. intros z Z. apply N. right. auto.
  Qed.

  Lemma pending_down : forall ks t n, NoDup ks -> attended sha1 p cwd d ops ks ->
    (forall m, (n <= m)%nat -> peers_for t (by_trackers ks (lookup_at (st m) (ops m))) = []) ->
    forall m, (n <= m)%nat -> (List.length (pending_of ks t (st (S m))) <= List.length (pending_of ks t (st m)))%nat.
  Proof.
    intros ks t n ND [_ AT] Z m L.
    destruct (pending_of_step sha1 p cwd d _ _ (ops m) t ks (R m) ND) as (gone & rest & _ & P).
    - intros k x I X. apply (AT k m x I X).
    - intros k x I X. rewrite <- state_S in X. apply (AT k (S m) x I X).
    - rewrite <- state_S in P. specialize (Z m L). unfold st in *. rewrite Z, app_nil_r in P. apply Permutation_length in P. rewrite app_length in P. lia.
  Qed.

  (** Either a job has not been touched, or less is to be reported. *)
  Lemma job_until : forall ks k t n, NoDup ks -> attended sha1 p cwd d ops ks -> In k ks -> (k < List.length tracker_urls)%nat ->
    (forall m, (n <= m)%nat -> peers_for t (by_trackers ks (lookup_at (st m) (ops m))) = []) ->
    forall r e l x, nth_error (pr_trackers (st n)) k = Some x -> In (Reporting r (e :: l)) (tk_jobs x) -> rg_torrent r = t ->
    forall i, (exists y, nth_error (pr_trackers (st (n + i))) k = Some y /\ In (Reporting r (e :: l)) (tk_jobs y)) \/
      (List.length (pending_of ks t (st (n + i))) < List.length (pending_of ks t (st n)))%nat.
  Proof.
    intros ks k t n ND AT IK KL Z r e l x X IJ E. induction i as [|i IH]; [left; exists x; rewrite Nat.add_0_r; auto|].
    rewrite Nat.add_succ_r. pose proof (pending_down ks t n ND AT Z (n + i) ltac:(lia)) as PD.
    assert (Mono : forall i, (List.length (pending_of ks t (st (n + i))) <= List.length (pending_of ks t (st n)))%nat).
    { clear i IH PD. induction i as [|i IH]; [rewrite Nat.add_0_r; auto|]. rewrite Nat.add_succ_r. pose proof (pending_down ks t n ND AT Z (n + i) ltac:(lia)). lia. }
    destruct IH as [(y & Y & JY)|LT]; [|right; lia].
    destruct (tracker_there (S (n + i)) k KL) as (z & HZ). pose proof HZ as HZ'. unfold st in HZ. rewrite state_S, tracker_nth in HZ. fold st in HZ. fold (st (n + i)) in HZ. rewrite Y in HZ. injection HZ as <-.
    destruct AT as [AI AT]. fold st in AT. pose proof (proj1 (AT k _ _ IK HZ')) as AL.
    destruct (job_moves (st (n + i)) (ops (n + i)) t k y r e l Y AL JY E) as [J|LT]; [left; eauto|]. right.
    (* the other trackers of [ks] do not report more *)
    assert (KD : ops (n + i) <> ops (n + i) \/ exists j c, ops (n + i) = PReport k j c).
    { destruct (ops (n + i)) eqn:O; try (exfalso; rewrite peers_idle in LT by (intros; discriminate); lia).
      - destruct (Nat.eq_dec k0 k) as [->|N]; [|exfalso; rewrite peers_idle in LT by (intros; congruence); lia]. exfalso.
        destruct (tracker_facts _ _ _ _ _ _ (R (n + i))) as (_ & HT & _). destruct (HT k y Y) as (U & _).
        pose proof (peers_lookup (st (n + i)) t k j e0 y _ Y U eq_refl (proj1 (AT k _ _ IK Y)) AL) as PL. apply Permutation_length in PL. rewrite app_length in PL. lia.
      - destruct (Nat.eq_dec k0 k) as [->|N]; [|exfalso; rewrite peers_idle in LT by (intros; congruence); lia]. right. eauto. }
    destruct KD as [KD|(j & c & EO)]; [congruence|].
    destruct (pending_of_in sha1 p cwd (st (n + i)) (ops (n + i)) t ks k ND IK) as (rest & P1 & P2).
    { intros k' x' N. apply peers_idle; rewrite EO; intros; congruence. }
    rewrite Y in P1, P2. cbn [option_map peers_of] in P1, P2. unfold st in P2 at 1. rewrite <- state_S in P2. fold st in P2.
    apply Permutation_length in P1, P2. rewrite app_length in P1, P2. pose proof (Mono i). lia.
  Qed.

  Lemma pending_ends : forall ks t n, NoDup ks -> attended sha1 p cwd d ops ks -> (forall k, In k ks -> (k < List.length tracker_urls)%nat) ->
    (forall m, (n <= m)%nat -> peers_for t (by_trackers ks (lookup_at (st m) (ops m))) = []) ->
    exists n', (n <= n')%nat /\ forall m, (n' <= m)%nat -> pending_of ks t (st m) = [].
  Proof.
    intros ks t n ND AT KL Z.
    assert (Go : forall w n', (n <= n')%nat -> (List.length (pending_of ks t (st n')) <= w)%nat -> exists m, (n' <= m)%nat /\ pending_of ks t (st m) = []).
    { induction w as [w IH] using (well_founded_induction lt_wf). intros n' L LW.
      destruct (pending_of ks t (st n')) as [|e q] eqn:EP; [exists n'; auto|].
      assert (I : In e (pending_of ks t (st n'))) by (rewrite EP; left; auto). unfold pending_of in I. apply in_flat_map in I as (k & IK & I).
      destruct (nth_error (pr_trackers (st n')) k) as [x|] eqn:X; [|destruct I]. cbn [peers_of] in I. unfold tracker_peers in I.
      apply in_flat_map in I as (j & IJ & I). destruct j as [|r l]; [destruct I|]. cbn [job_peers] in I.
      destruct (Nat.eqb_spec (rg_torrent r) t) as [ER|]; [|destruct I]. destruct l as [|e0 l]; [destruct I|].
      destruct AT as [AI AT]. destruct (AT k n' x IK X) as (_ & _ & AJ). destruct (AJ _ IJ) as (m & y & LM & Y & NI).
      destruct (job_until ks k t n' ND (conj AI AT) IK (KL k IK) ltac:(intros m' L'; apply Z; lia) r e0 l x X IJ ER (m - n')) as [(y' & Y' & J)|LT].
      - exfalso. replace (n' + (m - n'))%nat with m in Y' by lia. fold st in Y. rewrite Y in Y'. injection Y' as <-. auto.
      - replace (n' + (m - n'))%nat with m in LT by lia. rewrite EP in LT.
        destruct (IH (List.length (pending_of ks t (st m)))) with (n' := m) as (m' & L' & E); [lia|lia|lia|].
        exists m'. split; [lia|auto]. }
    destruct (Go _ n (le_n _) (le_n _)) as (n' & L & E). exists n'. split; [auto|]. intros m LM.
    assert (LE : (List.length (pending_of ks t (st m)) <= 0)%nat).
    { induction LM as [|m LM IH]; [rewrite E; auto|]. pose proof (pending_down ks t n ND AT Z m ltac:(lia)). lia. }
    destruct (pending_of ks t (st m)); [auto|cbn in LE; lia].
  Qed.

  Lemma delivered_of : forall ks t c, NoDup ks -> attended sha1 p cwd d ops ks -> (forall n, reachability c (ops n)) ->
    let ok e := is_reachable c (endpoint e) in
    forall n x, torrent_at sha1 p cwd d ops t n = Some x -> sy_dead x = false ->
    exists rest, Permutation (reported x ++ map endpoint (filter ok (pending_of ks t (st n))))
      (map endpoint (filter ok (peers_for t (by_trackers ks (done n)))) ++ rest).
  Proof.
    intros ks t c ND [AI AT] RC. cbn zeta. set (ok := fun e => is_reachable c (endpoint e)). fold st in AI, AT. unfold torrent_at. fold st.
    induction n as [|n IH]; intros x H DD; [destruct t; discriminate|].
    assert (PS : exists gone rest, Permutation (new_mail (st n) (ops n) t) (map endpoint (filter (chosen (ops n)) gone) ++ rest) /\
      Permutation (gone ++ pending_of ks t (st (S n))) (pending_of ks t (st n) ++ peers_for t (by_trackers ks (lookup_at (st n) (ops n))))).
    { unfold st at 2. rewrite state_S. apply (pending_of_step sha1 p cwd d _ _ (ops n) t ks (R n) ND).
      - intros k y I Y. apply (AT k n y I Y).
      - intros k y I Y. rewrite <- state_S in Y. apply (AT k (S n) y I Y). }
    destruct PS as (gone & more & NM & PM).
    assert (NM' : Permutation (new_mail (st n) (ops n) t) (map endpoint (filter ok gone) ++ more)).
    { rewrite NM. apply Permutation_app_tail. destruct (ops n) eqn:EO; try (cbn [new_mail] in NM; apply Permutation_nil in NM; apply app_eq_nil in NM as [NM _];
        cbn [chosen] in *; destruct gone as [|e0 g]; [reflexivity|discriminate NM]).
      apply Permutation_map. rewrite (filter_ext (chosen (PReport k j connects)) ok); [reflexivity|]. intros e0. cbn [chosen]. apply reach_ext.
      specialize (RC n). rewrite EO in RC. apply RC. }
    apply (filter_perm _ ok) in PM. rewrite !filter_app in PM. apply (Permutation_map endpoint) in PM. rewrite !map_app in PM.
    rewrite done_S, by_app, peers_for_app, filter_app, map_app.
    assert (G : forall y, nth_error (pr_torrents (st n)) t = Some y -> sy_dead y = false ->
      Permutation (reported x) (reported y ++ new_mail (st n) (ops n) t) ->
      exists rest, Permutation (reported x ++ map endpoint (filter ok (pending_of ks t (st (S n)))))
        ((map endpoint (filter ok (peers_for t (by_trackers ks (done n)))) ++ map endpoint (filter ok (peers_for t (by_trackers ks (lookup_at (st n) (ops n)))))) ++ rest)).
    { intros y Y DY PY. destruct (IH y Y DY) as (rest & IHP). exists (more ++ rest).
      rewrite PY, NM'. transitivity (reported y ++ (map endpoint (filter ok gone) ++ map endpoint (filter ok (pending_of ks t (st (S n))))) ++ more).
      { rewrite <- !app_assoc. do 2 apply Permutation_app_head. apply Permutation_app_comm. }
      rewrite PM, !app_assoc. rewrite IHP. rewrite <- !app_assoc. apply Permutation_app_head.
      rewrite Permutation_app_comm, <- !app_assoc. reflexivity. }
    pose proof H as H0. unfold st in H. rewrite state_S in H. fold st in H.
    apply torrent_cases in H; [|auto]. destruct H as [[H Z]|[(y & D & o' & H & OK' & E & PR & _)|(raw & full & h & EO & A & E1 & E2)]].
    - apply (G x H DD). fold (st n) in Z. rewrite Z, app_nil_r. auto.
    - subst x. destruct (ProofMain.reported_step sha1 p cwd (set_disk D y) o') as [_ RP]. destruct (RP DD) as [DY PY]. rewrite reported_set, PR in PY.
      apply (G y H DY PY).
    - subst x. exists []. rewrite app_nil_r.
      destruct (future_peers _ _ _ _ _ _ (R n)) as [FP1 FP2]. fold st in E1. fold (st n) in FP1, FP2, E1. rewrite <- E1 in FP1, FP2.
      assert (P0 : pending_of ks t (st n) = []).
      { destruct (pending_of ks t (st n)) as [|e q] eqn:EP; [auto|]. exfalso.
        assert (I : In e (pending_of ks t (st n))) by (rewrite EP; left; auto). unfold pending_of in I. apply in_flat_map in I as (k & IK & I).
        destruct (nth_error (pr_trackers (st n)) k) as [x|] eqn:X; [|destruct I]. cbn [peers_of] in I.
        assert (In e (pending t (st n))) by (unfold pending; apply in_flat_map; exists x; split; [eapply nth_error_In; eauto|auto]).
        rewrite FP1 in H. destruct H. }
      assert (L0 : lookup_at (st n) (ops n) = []) by (rewrite EO; reflexivity). rewrite L0 in *. cbn [by_trackers peers_for flat_map filter map app] in *.
      assert (D0 : peers_for t (by_trackers ks (done n)) = []).
      { unfold done, looked_up. destruct (peers_for t (by_trackers ks (lookups sha1 p cwd (process_init d) (map ops (seq 0 n))))) as [|e q] eqn:EP; [auto|]. exfalso.
        assert (I : In e (e :: q)) by (left; auto). rewrite <- EP in I. unfold peers_for in I. apply in_flat_map in I as (y & IY & I).
        unfold by_trackers in IY. apply filter_In in IY as [IY _].
        assert (J : In e (peers_for t (lookups sha1 p cwd (process_init d) (map ops (seq 0 n))))) by (unfold peers_for; apply in_flat_map; eauto).
        rewrite FP2 in J. destruct J. }
      rewrite P0 in PM. cbn [filter map app] in PM. apply Permutation_sym, Permutation_nil, app_eq_nil in PM as [_ PM]. rewrite PM, D0. cbn. auto.
  Qed.

  Lemma c84_reported : forall ks t c n0, (forall n, never_full (ops n)) -> (forall n, reachability c (ops n)) -> NoDup ks ->
    (forall k, In k ks -> (k < List.length tracker_urls)%nat) -> attended sha1 p cwd d ops ks -> (t < List.length (pr_torrents (st n0)))%nat ->
    exists n, (n0 <= n)%nat /\ forall m, (n <= m)%nat ->
      (forall k, In k ks -> List.length (between k t (done m)) = 1%nat) /\
      forall x, torrent_at sha1 p cwd d ops t m = Some x -> sy_dead x = false ->
      exists rest, Permutation (reported x) (map endpoint (filter (fun e => is_reachable c (endpoint e)) (peers_for t (by_trackers ks (done m)))) ++ rest).
  Proof.
    intros ks t c n0 NF RC ND KL AT L. destruct (asked_all ks t n0 NF AT KL L) as (n1 & L1 & B).
    destruct (pending_ends ks t n1 ND AT KL (no_more ks t n1 B)) as (n2 & L2 & Z). exists n2. split; [lia|]. intros m LM.
    split; [intros k IK; apply B; [auto|lia]|]. intros x X DD.
    destruct (delivered_of ks t c ND AT RC m x X DD) as (rest & P). rewrite (Z m LM) in P. cbn [filter map] in P. rewrite app_nil_r in P. eauto.
  Qed.
End Execution.
