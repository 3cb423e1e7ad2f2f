(** ProofThreads: proofs for PropThreads *)
From Coq Require Import Permutation Lia.
From Verif Require Import Base Utf8 ModelBencode ModelMessages ModelTorrent ModelWriter ModelTracker ModelStream
  ModelPeer ModelActors ModelCache ModelMain ModelThreads ProofBase SpecStream SpecPeer SpecSystem SpecMain SpecVerdict SpecWrites SpecThreads
  ProofMain ProofExactly.

Section P.
  Variable sha1 : bytes -> bytes.
  Variable p : profile.
  Variable cwd : loc.
  Variable W : nat.

  Definition handler_of (t : nat) (o : pop) : Prop := match o with PHandle u _ _ _ _ _ _ => u = t | _ => False end.
  Definition own (o : pop) : bool := match o with PStart _ | PFinish _ _ _ _ _ | PWrite _ => true | _ => false end.
  Lemma own_step : forall s o s', th_step sha1 p cwd W s (HOwn o) = Some s' ->
    own o = true /\ th_pr s' = pr_step sha1 p cwd (th_pr s) o /\ th_home s' = th_home s /\ th_held s' = th_held s /\ th_main s' = th_main s.
  Proof.
    intros s o s' H. cbn [th_step] in H. destruct o; try discriminate.
    - destruct (0 <? th_requests s t)%nat; [|discriminate]. injection H as <-. repeat split.
    - injection H as <-. repeat split.
    - destruct (0 <? th_pieces s t)%nat; [|discriminate]. injection H as <-. repeat split.
  Qed.
  Lemma pass_step : forall s t pc s', th_step sha1 p cwd W s (HPass t pc) = Some s' ->
    th_pr s' = th_pr s /\ th_home s' = th_home s /\ th_held s' = th_held s /\ th_main s' = th_main s /\ th_main s = None.
  Proof. intros s t pc s' H. cbn [th_step] in H. destruct (th_main s) eqn:E; [discriminate|]. injection H as <-. repeat split; auto. Qed.

  (** One step of a thread is at most one step of the process. *)
  Lemma step_pops : forall s h s', th_step sha1 p cwd W s h = Some s' -> th_pr s' = pr_run sha1 p cwd (th_pr s) (pop_at s h).
  Proof.
    intros s h s' H. destruct h as [w raw full|t k net pid|w acc fuel sh|o|t pc|o];
      [| | | |exact (proj1 (pass_step _ _ _ _ H))|exact (proj1 (proj2 (own_step _ _ _ H)))]; cbn [th_step pop_at] in *.
    - destruct ((w <? W)%nat && idle (th_held s w)); [|discriminate]. injection H as <-. reflexivity.
    - destruct (nth_error (th_home s) t); [|discriminate]. destruct (nth_error (pr_torrents (th_pr s)) t) as [x|]; [|discriminate].
      destruct (idle _ && _ && _)%bool; [|discriminate]. injection H as <-. reflexivity.
    - destruct (th_held s w) as [se|]; [|discriminate]. destruct (answered fuel se); [|discriminate]. injection H as <-. reflexivity.
    - destruct o; destruct (th_main s) as [[k' j']|]; try discriminate; try (injection H as <-; reflexivity).
      destruct ((k =? k')%nat && (j =? j')%nat); [|discriminate]. injection H as <-. reflexivity.
  Qed.
  Lemma run_pops : forall hops s s', th_run sha1 p cwd W s hops = Some s' -> th_pr s' = pr_run sha1 p cwd (th_pr s) (pops sha1 p cwd W s hops).
  Proof.
    induction hops as [|h t IH]; intros s s' H; cbn [th_run pops] in *; [injection H as <-; reflexivity|].
    destruct (th_step sha1 p cwd W s h) as [s1|] eqn:E; [|discriminate]. rewrite run_app, <- (step_pops _ _ _ E). auto.
  Qed.
  Lemma ok_pops : forall hops s s', Forall hop_ok hops -> th_run sha1 p cwd W s hops = Some s' -> Forall pop_ok (pops sha1 p cwd W s hops).
  Proof.
    induction hops as [|h t IH]; intros s s' F H; cbn [th_run pops] in *; [constructor|].
    destruct (th_step sha1 p cwd W s h) as [s1|] eqn:E; [|discriminate]. inversion F as [|? ? F1 F2]. apply Forall_app. split; [|eauto].
    destruct h as [w raw full|u k net pid|w acc fuel sh|o|u pc|o]; try (apply own_step in E); cbn [pop_at th_step hop_ok] in *.
    - constructor; [exact I|constructor].
    - constructor.
    - destruct (th_held s w); [constructor; [exact F1|constructor]|constructor].
    - constructor; [|constructor]. destruct o; try exact I. destruct (th_main s) as [[? ?]|]; discriminate.
    - constructor.
    - destruct E as [E _]. constructor; [|constructor]. destruct o; try exact I. discriminate.
  Qed.
  Lemma c78_execution : forall d hops s, threaded sha1 p cwd W d hops s ->
    started sha1 p cwd d (pops sha1 p cwd W (threads_init d) hops) (th_pr s).
  Proof. intros d hops s [F R]. split; [exact (ok_pops _ _ _ F R)|exact (run_pops _ _ _ R)]. Qed.

  (** Every torrent has a home, and a worker only handles mail of its own torrents. *)
  Definition housed (s : threads) : Prop :=
    List.length (th_home s) = List.length (pr_torrents (th_pr s)) /\
    forall w se, th_held s w = Some se -> lives_on s (se_torrent se) w.
  Lemma hold_same : forall held w se, hold held w se w = se.
  Proof. intros. unfold hold. rewrite Nat.eqb_refl. reflexivity. Qed.
  Lemma hold_other : forall held w se v, v <> w -> hold held w se v = held v.
  Proof. intros held w se v N. unfold hold. apply Nat.eqb_neq in N. rewrite N. reflexivity. Qed.
  Lemma not_add_length : forall s o, accepted p [o] = [] -> List.length (pr_torrents (pr_step sha1 p cwd s o)) = List.length (pr_torrents s).
  Proof. intros s o A. rewrite torrents_length, A. cbn. lia. Qed.

  Lemma housed_step : forall s h s', housed s -> th_step sha1 p cwd W s h = Some s' -> housed s'.
  Proof.
    intros s h s' [L O] H. destruct h as [w raw full|t k net pid|w acc fuel sh|o|t pc|o]; try (apply own_step in H); try (apply pass_step in H); cbn [th_step] in *.
    - destruct ((w <? W)%nat && idle (th_held s w)); [|discriminate]. injection H as <-. split; cbn [th_home th_pr th_held].
      + rewrite app_length, repeat_length, L. pose proof (torrents_length sha1 p cwd (th_pr s) (PAdd raw full)) as TL. unfold step_pr in *. cbn [pr_step] in *. lia.
      + intros v se E. specialize (O v se E). unfold lives_on in *. cbn [th_home]. rewrite nth_error_app1; [exact O|]. apply nth_error_Some. congruence.
    - destruct (nth_error (th_home s) t) as [w|] eqn:E; [|discriminate]. destruct (nth_error (pr_torrents (th_pr s)) t) as [x|]; [|discriminate].
      destruct (idle _ && _ && _)%bool; [|discriminate]. injection H as <-. split; cbn [th_home th_pr th_held]; [exact L|].
      intros v se. destruct (Nat.eq_dec v w) as [->|N]; [rewrite hold_same|rewrite hold_other by exact N; apply O].
      intros X. injection X as <-. exact E.
    - destruct (th_held s w) as [se|] eqn:E; [|discriminate]. destruct (answered fuel se); [|discriminate]. injection H as <-. split; cbn [th_home th_pr th_held].
      + rewrite L. symmetry. apply (not_add_length (th_pr s) (PHandle (se_torrent se) (se_mail se) acc fuel (se_net se) (se_pid se) sh)). reflexivity.
      + intros v se'. destruct (Nat.eq_dec v w) as [->|N]; [rewrite hold_same; discriminate|rewrite hold_other by exact N; apply O].
    - assert (G : accepted p [o] = [] /\ th_home s' = th_home s /\ th_held s' = th_held s /\ th_pr s' = pr_step sha1 p cwd (th_pr s) o).
      { destruct o; destruct (th_main s) as [[k' j']|]; try discriminate; try (injection H as <-; repeat split; reflexivity).
        destruct ((k =? k')%nat && (j =? j')%nat); [|discriminate]. injection H as <-. repeat split; reflexivity. }
      destruct G as (A & B & C & D). split; [rewrite B, D, not_add_length by exact A; exact L|]. unfold lives_on. rewrite B, C. exact O.
    - destruct H as (A & B & C & _). unfold housed, lives_on. rewrite A, B, C. split; [exact L|exact O].
    - destruct H as (A & D & B & C & _). assert (A' : accepted p [o] = []) by (destruct o; try discriminate A; reflexivity). clear A. rename A' into A. split; [rewrite B, D, not_add_length by exact A; exact L|]. unfold lives_on. rewrite B, C. exact O.
  Qed.
  Lemma housed_run : forall hops s s', housed s -> th_run sha1 p cwd W s hops = Some s' -> housed s'.
  Proof.
    induction hops as [|h t IH]; intros s s' I H; cbn [th_run] in H; [injection H as <-; exact I|].
    destruct (th_step sha1 p cwd W s h) as [s1|] eqn:E; [|discriminate]. exact (IH _ _ (housed_step _ _ _ I E) H).
  Qed.
  Lemma housed_started : forall d hops s, threaded sha1 p cwd W d hops s -> housed s.
  Proof. intros d hops s [_ R]. refine (housed_run _ _ _ _ R). split; [reflexivity|discriminate]. Qed.

  (** A torrent whose actor does nothing. *)
  Definition rests (x x' : sys) : Prop :=
    sy_actor x' = sy_actor x /\ sy_trace x' = sy_trace x /\ sy_dead x' = sy_dead x /\
    (exists more, sy_mail x' = sy_mail x ++ more) /\ (exists done, sy_writer x = done ++ sy_writer x').
  Lemma rests_refl : forall x, rests x x.
  Proof. intros x. repeat split; [exists []; rewrite app_nil_r; reflexivity|exists []; reflexivity]. Qed.
  Lemma rests_trans : forall x y z, rests x y -> rests y z -> rests x z.
  Proof.
    intros x y z (A & B & C & (m & D) & (f & E)) (A' & B' & C' & (m' & D') & (f' & E')).
    split; [congruence|]. split; [congruence|]. split; [congruence|].
    split; [exists (m ++ m'); rewrite D', D, app_assoc; reflexivity|]. exists (f ++ f'). rewrite E, E', app_assoc. reflexivity.
  Qed.
  Lemma rests_op : forall x D o, (forall k f sh, o <> OHandle k f sh) -> rests x (sys_step sha1 p cwd (set_disk D x) o).
  Proof.
    intros x D o N. destruct o as [ep|k f sh| |k net pid fuel|]; cbn [sys_step set_disk sy_actor sy_dead sy_mail sy_queue sy_working sy_workers sy_writer sy_writer_dead sy_trace sy_disk].
    - repeat split; cbn; [eexists; reflexivity|exists []; reflexivity].
    - exfalso. exact (N k f sh eq_refl).
    - destruct (sy_queue x) as [|r rest]; [|destruct (_ <? _)%nat]; (repeat split; cbn; [exists []; rewrite app_nil_r; reflexivity|exists []; reflexivity]).
    - destruct (nth_error (sy_working x) k) as [r|]; [|repeat split; cbn; [exists []; rewrite app_nil_r; reflexivity|exists []; reflexivity]].
      destruct (download sha1 p fuel net pid (rq_endpoint r) (rq_info r) (rq_idx r)) as [[piece|e]| |];
        (repeat split; cbn; [first [eexists; reflexivity | exists []; rewrite app_nil_r; reflexivity]|exists []; reflexivity]).
    - destruct (sy_writer_dead x); [repeat split; cbn; [exists []; rewrite app_nil_r; reflexivity|exists []; reflexivity]|].
      destruct (sy_writer x) as [|r rest] eqn:E; [repeat split; cbn; [exists []; rewrite app_nil_r; reflexivity|exists []; rewrite E; reflexivity]|].
      destruct (write p cwd D (rd_piece r) (rd_idx r) (rd_files r) (rd_piece_length r));
        (repeat split; cbn; [exists []; rewrite app_nil_r; reflexivity|]); first [exists [r]; rewrite E; reflexivity | exists []; rewrite E; reflexivity].
  Qed.
  Lemma rests_torrent : forall s t o u x, (forall k f sh, u = t -> o <> OHandle k f sh) -> nth_error (pr_torrents s) u = Some x ->
    exists x', nth_error (pr_torrents (torrent_step sha1 p cwd s t o)) u = Some x' /\ rests x x'.
  Proof.
    intros s t o u x N E. rewrite torrent_nth, E. destruct (Nat.eqb_spec u t) as [->|NE]; cbn [option_map].
    - eexists. split; [reflexivity|]. apply rests_op. intros k f sh. exact (N k f sh eq_refl).
    - exists x. split; [reflexivity|apply rests_refl].
  Qed.
  Lemma rests_step : forall s o u x, ~ handler_of u o -> nth_error (pr_torrents s) u = Some x ->
    exists x', nth_error (pr_torrents (pr_step sha1 p cwd s o)) u = Some x' /\ rests x x'.
  Proof.
    intros s o u x N E.
    assert (Same : exists x', nth_error (pr_torrents s) u = Some x' /\ rests x x') by (exists x; split; [exact E|apply rests_refl]).
    destruct o as [raw full|full|k|k j e|k j c|t k acc fuel net pid sh|t|t i net pid fuel|t]; cbn [pr_step handler_of] in *.
    - destruct (add_cases p full raw s) as [(h & _ & _ & ->)|(_ & _ & ->)]; [|exact Same]. cbn [pr_torrents].
      exists x. split; [|apply rests_refl]. rewrite nth_error_app1; [exact E|]. apply nth_error_Some. congruence.
    - destruct (pr_interface s); exact Same.
    - exact Same.
    - exact Same.
    - destruct (nth_error (pr_trackers s) k) as [y|]; [|exact Same]. destruct (nth_error (tk_jobs y) j) as [[r|r [|e rest]]|]; try exact Same.
      destruct (is_reachable c (endpoint e)); [|exact Same]. apply rests_torrent; [discriminate|exact E].
    - destruct (nth_error (pr_torrents s) t) as [y|]; [|exact Same].
      assert (G : forall s1 f, pr_torrents s1 = pr_torrents s -> exists x', nth_error (pr_torrents (torrent_step sha1 p cwd s1 t (OHandle k f sh))) u = Some x' /\ rests x x').
      { intros s1 f Q. apply rests_torrent; [intros ? ? ? X; congruence|rewrite Q; exact E]. }
      destruct (nth_error (sy_mail y) k) as [[ep|ep piece idx|ep idx]|]; try (apply G; reflexivity).
      destruct (ta_info (sy_actor y)); try (apply G; reflexivity). destruct (sy_dead y); try (apply G; reflexivity).
      destruct (collect_info acc fuel cwd (pr_disk s) net pid (ta_info_hash (sy_actor y)) ep) as [[f d]| |]; try (apply G; reflexivity). exact Same.
    - apply rests_torrent; [discriminate|exact E].
    - apply rests_torrent; [discriminate|exact E].
    - apply rests_torrent; [discriminate|exact E].
  Qed.

  (** *** A worker that is in a session *)
  Definition ends_session (w : nat) (h : hop) : Prop := match h with HEnd v _ _ _ => v = w | _ => False end.
  Definition asks_worker (w : nat) (h : hop) : Prop := match h with HRequest v _ _ => v = w | _ => False end.

  Lemma still_step : forall s h s' w se, housed s -> th_held s w = Some se -> th_step sha1 p cwd W s h = Some s' -> ~ ends_session w h ->
    th_held s' w = Some se /\ stood_still w s s' /\ ~ asks_worker w h.
  Proof.
    intros s h s' w se [L O] E H N.
    assert (R : forall o, th_pr s' = pr_step sha1 p cwd (th_pr s) o -> (forall t, lives_on s t w -> ~ handler_of t o) ->
      (forall t, lives_on s' t w <-> lives_on s t w) -> stood_still w s s').
    { intros o Q NH LV. split; [exact LV|]. intros t x T X. rewrite Q.
      destruct (rests_step (th_pr s) o t x (NH t T) X) as (x' & X' & RR). exists x'. split; [exact X'|exact RR]. }
    destruct h as [v raw full|t k net pid|v acc fuel sh|o|t pc|o]; try (apply own_step in H); try (apply pass_step in H); cbn [th_step ends_session asks_worker] in *.
    - destruct (th_held s v) as [se'|] eqn:EV; [cbn [idle] in H; rewrite andb_false_r in H; discriminate|].
      destruct (v <? W)%nat; [|discriminate]. cbn [idle andb] in H. injection H as <-. cbn [th_held].
      assert (VN : v <> w) by congruence. split; [exact E|]. split; [|exact VN].
      refine (R (PAdd raw full) eq_refl _ _); [intros ? ? []|]. intros t. unfold lives_on. cbn [th_home].
      destruct (Nat.lt_ge_cases t (List.length (th_home s))) as [LT|GE]; [rewrite nth_error_app1 by exact LT; tauto|].
      rewrite nth_error_app2 by exact GE. split; intros X.
      + exfalso. apply nth_error_In in X. apply repeat_spec in X. congruence.
      + exfalso. assert (t < List.length (th_home s))%nat by (apply nth_error_Some; congruence). lia.
    - destruct (nth_error (th_home s) t) as [v|] eqn:EH; [|discriminate]. destruct (nth_error (pr_torrents (th_pr s)) t) as [x|]; [|discriminate].
      destruct (th_held s v) as [se'|] eqn:EV; [discriminate|]. destruct (idle None && negb (sy_dead x) && (k <? List.length (sy_mail x))%nat)%bool; [|discriminate].
      injection H as <-. cbn [th_held]. assert (VN : w <> v) by congruence. split; [rewrite hold_other by exact VN; exact E|]. split; [|tauto].
      split; [intros; unfold lives_on; tauto|]. intros u y T X. exists y. split; [exact X|apply rests_refl].
    - destruct (th_held s v) as [se'|] eqn:EV; [|discriminate]. destruct (answered fuel se'); [|discriminate]. injection H as <-. cbn [th_held].
      assert (VN : w <> v) by congruence. split; [rewrite hold_other by exact VN; exact E|]. split; [|tauto].
      refine (R (PHandle (se_torrent se') (se_mail se') acc fuel (se_net se') (se_pid se') sh) eq_refl _ _); [|intros; unfold lives_on; tauto]. cbn [handler_of]. intros t T <-. specialize (O v se' EV). unfold lives_on in *. congruence.
    - assert (G : (forall t, ~ handler_of t o) /\ th_home s' = th_home s /\ th_held s' = th_held s /\ th_pr s' = pr_step sha1 p cwd (th_pr s) o).
      { destruct o; destruct (th_main s) as [[k' j']|]; try discriminate; try (injection H as <-; repeat split; solve [reflexivity | intros ? []]).
        destruct ((k =? k')%nat && (j =? j')%nat); [|discriminate]. injection H as <-. repeat split; solve [reflexivity | intros ? []]. }
      destruct G as (A & B & C & D). split; [rewrite C; exact E|]. split; [|tauto].
      refine (R o D _ _); [intros; apply A|]. intros t. unfold lives_on. rewrite B. tauto.
    - destruct H as (A & B & C & _). split; [rewrite C; exact E|]. split; [|tauto]. unfold stood_still, lives_on. rewrite A, B.
      split; [tauto|]. intros u x _ X. exists x. split; [exact X|apply rests_refl].
    - destruct H as (A' & D & B & C & _). assert (A : forall t, ~ handler_of t o) by (intros u; destruct o; try discriminate A'; intros []). split; [rewrite C; exact E|]. split; [|tauto].
      refine (R o D _ _); [intros; apply A|]. intros t. unfold lives_on. rewrite B. tauto.
  Qed.
  Lemma still_refl : forall w s, stood_still w s s.
  Proof. intros w s. split; [tauto|]. intros t x _ X. exists x. split; [exact X|apply rests_refl]. Qed.
  Lemma still_trans : forall w a b c, stood_still w a b -> stood_still w b c -> stood_still w a c.
  Proof.
    intros w a b c [A1 A2] [B1 B2]. split; [intros t; rewrite B1; apply A1|]. intros t x T X.
    destruct (A2 t x T X) as (y & Y & RY). destruct (B2 t y (proj2 (A1 t) T) Y) as (z & Z & RZ).
    exists z. split; [exact Z|]. exact (rests_trans _ _ _ RY RZ).
  Qed.
  Lemma still_run : forall hops s s' w se, housed s -> th_held s w = Some se -> th_run sha1 p cwd W s hops = Some s' ->
    Forall (fun h => ~ ends_session w h) hops ->
    th_held s' w = Some se /\ stood_still w s s' /\ Forall (fun h => ~ asks_worker w h) hops.
  Proof.
    induction hops as [|h t IH]; intros s s' w se I E H F; cbn [th_run] in H.
    - injection H as <-. split; [exact E|]. split; [apply still_refl|constructor].
    - destruct (th_step sha1 p cwd W s h) as [s1|] eqn:ES; [|discriminate]. inversion F as [|? ? F1 F2].
      destruct (still_step _ _ _ _ _ I E ES F1) as (A & B & C). destruct (IH _ _ _ _ (housed_step _ _ _ I ES) A H F2) as (A' & B' & C').
      split; [exact A'|]. split; [exact (still_trans _ _ _ _ B B')|constructor; auto].
  Qed.

  Lemma c78_waits : forall d hops s w se hops' s', threaded sha1 p cwd W d hops s -> th_held s w = Some se ->
    th_run sha1 p cwd W s hops' = Some s' -> (forall accept fuel shuffle, ~ In (HEnd w accept fuel shuffle) hops') ->
    th_held s' w = Some se /\ stood_still w s s' /\ forall raw full, ~ In (HRequest w raw full) hops'.
  Proof.
    intros d hops s w se hops' s' R E H N. destruct (still_run hops' s s' w se (housed_started _ _ _ R) E H) as (A & B & C).
    { apply Forall_forall. intros h I X. destruct h as [| |v acc fuel sh| | |]; try destruct X. exact (N acc fuel sh I). }
    split; [exact A|]. split; [exact B|]. intros raw full I. rewrite Forall_forall in C. exact (C _ I eq_refl).
  Qed.

  Lemma no_end : forall hops s s' w se h ep, housed s -> th_held s w = Some se -> se_asks se = Some (h, ep) ->
    (forall fuel, get_info fuel (se_net se) (se_pid se) h ep = OutOfFuel) -> th_run sha1 p cwd W s hops = Some s' ->
    Forall (fun h => ~ ends_session w h) hops.
  Proof.
    induction hops as [|o t IH]; intros s s' w se h ep I E A N H; cbn [th_run] in H; [constructor|].
    destruct (th_step sha1 p cwd W s o) as [s1|] eqn:ES; [|discriminate].
    assert (NE : ~ ends_session w o).
    { intros X. destruct o as [| |v acc fuel sh| | |]; try destruct X. cbn [th_step] in ES. rewrite E in ES.
      unfold answered in ES. rewrite A, N in ES. discriminate. }
    constructor; [exact NE|]. destruct (still_step _ _ _ _ _ I E ES NE) as (E' & _). exact (IH _ _ _ _ _ _ (housed_step _ _ _ I ES) E' A N H).
  Qed.
  Lemma c78_never : forall d hops s w hops' s', threaded sha1 p cwd W d hops s -> lost s w -> th_run sha1 p cwd W s hops' = Some s' ->
    lost s' w /\ stood_still w s s' /\ (forall raw full, ~ In (HRequest w raw full) hops').
  Proof.
    intros d hops s w hops' s' R (se & h & ep & E & A & N) H. pose proof (no_end _ _ _ _ _ _ _ (housed_started _ _ _ R) E A N H) as F.
    destruct (still_run hops' s s' w se (housed_started _ _ _ R) E H F) as (X & Y & Z).
    split; [exists se, h, ep; auto|]. split; [exact Y|]. intros raw full I. rewrite Forall_forall in Z. exact (Z _ I eq_refl).
  Qed.

  (** *** A worker that is free *)
  Lemma c78_free : forall s t w x k net pid accept fuel shuffle, lives_on s t w -> th_held s w = None ->
    nth_error (pr_torrents (th_pr s)) t = Some x -> sy_dead x = false -> (k < List.length (sy_mail x))%nat ->
    (forall ep, nth_error (sy_mail x) k = Some (PeerFound ep) -> ta_info (sy_actor x) = None ->
    get_info fuel net pid (ta_info_hash (sy_actor x)) ep <> OutOfFuel) ->
    exists s', th_run sha1 p cwd W s [HBegin t k net pid; HEnd w accept fuel shuffle] = Some s' /\
      th_pr s' = pr_step sha1 p cwd (th_pr s) (PHandle t k accept fuel net pid shuffle) /\ th_home s' = th_home s /\
      th_main s' = th_main s /\ forall v, th_held s' v = th_held s v.
  Proof.
    intros s t w x k net pid accept fuel shuffle T E X D K N. unfold lives_on in T. apply Nat.ltb_lt in K.
    assert (AN : forall se, se_net se = net -> se_pid se = pid -> se_asks se = ModelThreads.asks cwd (pr_disk (th_pr s)) x k -> answered fuel se = true).
    { intros se <- <- Q. unfold answered. rewrite Q. unfold ModelThreads.asks. destruct (nth_error (sy_mail x) k) as [[ep|ep piece idx|ep idx]|]; try reflexivity.
      destruct (ta_info (sy_actor x)); [reflexivity|]. destruct (walk_create (pr_disk (th_pr s)) cwd [dot; downloads]) as [[d1 l1]|]; [|reflexivity].
      destruct (from_file d1 (cache_loc cwd (ta_info_hash (sy_actor x)))) as [[i|e]| |]; try reflexivity.
      specialize (N ep eq_refl eq_refl). destruct (get_info fuel (se_net se) (se_pid se) (ta_info_hash (sy_actor x)) ep); congruence. }
    eexists. split.
    - cbn [th_run th_step]. rewrite T, X, E, D, K. cbn [idle negb andb th_held]. rewrite hold_same, AN by reflexivity. reflexivity.
    - cbn [th_pr th_home th_main th_held se_torrent se_mail se_net se_pid]. split; [reflexivity|]. split; [reflexivity|]. split; [reflexivity|].
      intros v. destruct (Nat.eq_dec v w) as [->|NV]; [rewrite hold_same; auto|rewrite !hold_other by exact NV; reflexivity].
  Qed.
  Lemma c78_request : forall s w raw full, (w < W)%nat -> th_held s w = None ->
    exists s', th_step sha1 p cwd W s (HRequest w raw full) = Some s' /\ th_pr s' = pr_step sha1 p cwd (th_pr s) (PAdd raw full).
  Proof. intros s w raw full L E. apply Nat.ltb_lt in L. cbn [th_step]. rewrite L, E. eexists. split; reflexivity. Qed.
  Lemma c78_own : forall s o, match o with PStart t => (0 < th_requests s t)%nat | PFinish _ _ _ _ _ => True | PWrite t => (0 < th_pieces s t)%nat | _ => False end ->
    exists s', th_step sha1 p cwd W s (HOwn o) = Some s' /\ th_pr s' = pr_step sha1 p cwd (th_pr s) o.
  Proof.
    intros s o K. destruct o; try contradiction; cbn [th_step]; try (apply Nat.ltb_lt in K; rewrite K); eexists; split; reflexivity.
  Qed.

  (** *** The main thread *)
  Definition reports (j : option job) : bool := match j with Some (Reporting _ _) => true | _ => false end.
  Definition tracker_reports (j : nat) (x : option tracker_actor) : bool :=
    match x with Some x => reports (nth_error (tk_jobs x) j) | None => false end.
  Lemma reporting_eq : forall s k j, reporting s k j = tracker_reports j (nth_error (pr_trackers s) k).
  Proof. intros s k j. unfold reporting, tracker_reports, reports. destruct (nth_error (pr_trackers s) k) as [x|]; [|reflexivity]. destruct (nth_error (tk_jobs x) j) as [[]|]; reflexivity. Qed.
  Lemma nth_remove : forall A i (l : list A) j, nth_error (remove_nth i l) j = nth_error l (if (j <? i)%nat then j else S j).
  Proof.
    induction i as [|i IH]; intros l j; destruct l as [|a t]; cbn [remove_nth].
    - destruct j; destruct (_ <? _)%nat; reflexivity.
    - destruct (Nat.ltb_spec j 0); [lia|reflexivity].
    - destruct j; destruct (_ <? _)%nat; reflexivity.
    - destruct j as [|j]; [reflexivity|]. cbn [nth_error]. rewrite IH. change (S j <? S i)%nat with (j <? i)%nat. destruct (j <? i)%nat; reflexivity.
  Qed.
  Definition only (s : process) (m : option (nat * nat)) : Prop := forall k j, reporting s k j = true <-> m = Some (k, j).
  Lemma only_none : forall s, only s None -> forall k j, reporting s k j = false.
  Proof. intros s H k j. destruct (reporting s k j) eqn:E; [|reflexivity]. apply H in E. discriminate. Qed.
  Lemma only_same : forall s s' m, pr_trackers s' = pr_trackers s -> only s m -> only s' m.
  Proof. intros s s' m E H k j. rewrite reporting_eq, E, <- reporting_eq. apply H. Qed.
  (** What happens to one tracker, when nothing else of the kind is under way. *)
  Lemma only_next : forall s o k0 j0, (match o with PLookup k j _ => k = k0 /\ j = j0 | PReport k j _ => k = k0 /\ j = j0 | _ => False end) ->
    (forall k j, reporting s k j = true -> (k, j) = (k0, j0)) ->
    only (pr_step sha1 p cwd s o) (if reporting (pr_step sha1 p cwd s o) k0 j0 then Some (k0, j0) else None).
  Proof.
    intros s o k0 j0 K H.
    assert (G : forall k j, reporting (pr_step sha1 p cwd s o) k j = true -> (k, j) = (k0, j0)).
    { intros k j. rewrite reporting_eq, tracker_nth. specialize (H k).
      assert (H' : forall j, tracker_reports j (nth_error (pr_trackers s) k) = true -> (k, j) = (k0, j0)) by (intros i; rewrite <- reporting_eq; apply H). clear H.
      destruct (nth_error (pr_trackers s) k) as [x|]; cbn [option_map tracker_reports] in *; [|discriminate].
      assert (U : forall v, reports (nth_error (tk_jobs (set_jobs x (update_nth j0 (fun _ => v) (tk_jobs x)))) j) = true -> k = k0 -> (k, j) = (k0, j0)).
      { intros v. cbn [set_jobs tk_jobs]. rewrite nth_update. destruct (Nat.eqb_spec j j0) as [->|N]; [intros _ ->; reflexivity|]. intros X _. exact (H' j X). }
      assert (R : reports (nth_error (tk_jobs (set_jobs x (remove_nth j0 (tk_jobs x)))) j) = true -> k = k0 -> (k, j) = (k0, j0)).
      { cbn [set_jobs tk_jobs]. rewrite nth_remove. intros X ->. apply H' in X. injection X as X. exfalso. destruct (Nat.ltb_spec j j0); lia. }
      destruct o as [raw full|full|k1|k1 j1 e|k1 j1 c|t k1 acc fuel net pid sh|t|t i net pid fuel|t]; try destruct K; subst; cbn [tracker_after].
      - destruct (Nat.eqb_spec k k0) as [->|N]; [|apply H']. destruct (nth_error (tk_jobs x) j0) as [[r|r l]|]; try apply H'.
        destruct (lookup e (tk_url x) (rg_hash r)) as [[l|er]| |]; [intros X; exact (U _ X eq_refl)|intros X; exact (R X eq_refl)| |apply H'].
        cbn [tracker_die tk_jobs]. destruct j; discriminate.
      - destruct (Nat.eqb_spec k k0) as [->|N]; [|apply H']. destruct (nth_error (tk_jobs x) j0) as [[r|r [|e l]]|]; try apply H'.
        + intros X. exact (R X eq_refl).
        + intros X. exact (U _ X eq_refl). }
    intros k j. destruct (reporting (pr_step sha1 p cwd s o) k0 j0) eqn:E; split; intros X; try discriminate.
    - apply G in X. congruence.
    - injection X as <- <-. exact E.
    - exfalso. pose proof (G _ _ X) as Y. injection Y as -> ->. congruence.
  Qed.
  Lemma only_step : forall s h s', only (th_pr s) (th_main s) -> th_step sha1 p cwd W s h = Some s' -> only (th_pr s') (th_main s').
  Proof.
    intros s h s' I H. destruct h as [w raw full|t k net pid|w acc fuel sh|o|t pc|o]; try (apply own_step in H); try (apply pass_step in H); cbn [th_step] in *.
    - destruct ((w <? W)%nat && idle (th_held s w)); [|discriminate]. injection H as <-. cbn [th_pr th_main]. refine (only_same _ _ _ _ I).
      destruct (add_cases p full raw (th_pr s)) as [(h & _ & _ & ->)|(_ & _ & ->)]; reflexivity.
    - destruct (nth_error (th_home s) t); [|discriminate]. destruct (nth_error (pr_torrents (th_pr s)) t) as [x|]; [|discriminate].
      destruct (idle _ && _ && _)%bool; [|discriminate]. injection H as <-. exact I.
    - destruct (th_held s w) as [se|]; [|discriminate]. destruct (answered fuel se); [|discriminate]. injection H as <-. cbn [th_pr th_main].
      refine (only_same _ _ _ _ I). exact (proj1 (quiet_step sha1 p cwd (th_pr s) (PHandle (se_torrent se) (se_mail se) acc fuel (se_net se) (se_pid se) sh))).
    - destruct o as [raw full|full|k|k j e|k j c|t k acc fuel net pid sh|t|t i net pid fuel|t]; try (destruct (th_main s) as [[k' j']|]; discriminate).
      + destruct (th_main s) as [[k' j']|]; [discriminate|]. injection H as <-. pose proof (only_none _ I) as N. intros k j.
        cbn [th_pr th_main]. split; [|discriminate]. intros X.
        change (reporting (pr_step sha1 p cwd (th_pr s) (PInterface full)) k j = true) in X. exfalso. revert X.
        rewrite reporting_eq, tracker_nth. specialize (N k j). rewrite reporting_eq in N.
        destruct (nth_error (pr_trackers (th_pr s)) k) as [x|]; cbn [option_map tracker_reports tracker_after] in *; [|discriminate].
        destruct (pr_interface (th_pr s)); [congruence|]. unfold forward. destruct (tk_alive x && negb (full k)); cbn [tracker_push tk_jobs]; congruence.
      + destruct (th_main s) as [[k' j']|]; [discriminate|]. injection H as <-. pose proof (only_none _ I) as N. intros k1 j.
        cbn [th_pr th_main]. split; [|discriminate]. intros X. exfalso.
        change (reporting (pr_step sha1 p cwd (th_pr s) (PTake k)) k1 j = true) in X. revert X. rewrite reporting_eq, tracker_nth. specialize (N k1 j). rewrite reporting_eq in N.
        destruct (nth_error (pr_trackers (th_pr s)) k1) as [x|]; cbn [option_map tracker_reports tracker_after] in *; [|discriminate].
        destruct (k1 =? k)%nat; [|congruence]. destruct (tk_mail x) as [|r rest]; [congruence|]. cbn [tk_jobs].
        destruct (Nat.lt_ge_cases j (List.length (tk_jobs x))) as [L|G]; [rewrite nth_error_app1 by exact L; congruence|].
        rewrite nth_error_app2 by exact G. destruct (j - List.length (tk_jobs x))%nat as [|n]; [discriminate|destruct n; discriminate].
      + destruct (th_main s) as [[k' j']|]; [discriminate|]. injection H as <-. pose proof (only_none _ I) as N. cbn [th_pr th_main].
        apply (only_next (th_pr s) (PLookup k j e) k j); [auto|]. intros k1 j1 X. rewrite N in X. discriminate.
      + destruct (th_main s) as [[k' j']|]; [|discriminate]. destruct (Nat.eqb_spec k k') as [<-|]; [|discriminate]. destruct (Nat.eqb_spec j j') as [<-|]; [|discriminate].
        cbn [andb] in H. injection H as <-. apply (only_next (th_pr s) (PReport k j c) k j); [auto|]. intros k1 j1 X. apply I in X. congruence.
    - destruct H as (A & _ & _ & B & _). rewrite A, B. exact I.
    - destruct H as (A & -> & _ & _ & ->). destruct o; try discriminate; (refine (only_same _ _ _ _ I)).
      + exact (proj1 (quiet_step sha1 p cwd (th_pr s) (PStart t))).
      + exact (proj1 (quiet_step sha1 p cwd (th_pr s) (PFinish t i net pid fuel))).
      + exact (proj1 (quiet_step sha1 p cwd (th_pr s) (PWrite t))).
  Qed.
  Lemma only_run : forall hops s s', only (th_pr s) (th_main s) -> th_run sha1 p cwd W s hops = Some s' -> only (th_pr s') (th_main s').
  Proof.
    induction hops as [|h t IH]; intros s s' I H; cbn [th_run] in H; [injection H as <-; exact I|].
    destruct (th_step sha1 p cwd W s h) as [s1|] eqn:E; [|discriminate]. exact (IH _ _ (only_step _ _ _ I E) H).
  Qed.
  Lemma c78_one_answer : forall d hops s, threaded sha1 p cwd W d hops s -> forall k j, reporting (th_pr s) k j = true <-> th_main s = Some (k, j).
  Proof.
    intros d hops s [_ R]. refine (only_run _ _ _ _ R). intros k j. split; [|discriminate]. cbn [threads_init th_pr]. rewrite reporting_eq. intros X. exfalso.
    cbn [process_init pr_trackers] in X. destruct (nth_error (map tracker_new tracker_urls) k) as [x|] eqn:E; [|discriminate].
    apply nth_error_In, in_map_iff in E as (u & <- & _). cbn in X. destruct j; discriminate.
  Qed.

  (** The loop over the peers of an answer comes to its end, and the main thread is free again. *)
  Lemma c78_loop : forall rest cs s k j x r, th_main s = Some (k, j) -> nth_error (pr_trackers (th_pr s)) k = Some x ->
    nth_error (tk_jobs x) j = Some (Reporting r rest) -> List.length cs = S (List.length rest) -> only (th_pr s) (th_main s) ->
    exists s', th_run sha1 p cwd W s (map (fun c => HMain (PReport k j c)) cs) = Some s' /\ th_main s' = None.
  Proof.
    induction rest as [|e rest IH]; intros cs s k j x r M X J L I; destruct cs as [|c cs]; cbn [List.length] in L; try discriminate.
    - destruct cs; [|discriminate]. cbn [map th_run th_step]. rewrite M, !Nat.eqb_refl. cbn [andb].
      assert (N : reporting (step_pr sha1 p cwd s (PReport k j c)) k j = false).
      { unfold step_pr. rewrite reporting_eq, tracker_nth, X. cbn [option_map tracker_after tracker_reports]. rewrite Nat.eqb_refl, J.
        cbn [set_jobs tk_jobs]. rewrite nth_remove, Nat.ltb_irrefl. destruct (reports (nth_error (tk_jobs x) (S j))) eqn:E; [|reflexivity]. exfalso.
        assert (Y : reporting (th_pr s) k (S j) = true) by (rewrite reporting_eq, X; exact E). apply I in Y. rewrite M in Y. injection Y. lia. }
      rewrite N. eexists. split; reflexivity.
    - cbn [map th_run]. destruct (th_step sha1 p cwd W s (HMain (PReport k j c))) as [s1|] eqn:E.
      2: { exfalso. cbn [th_step] in E. rewrite M, !Nat.eqb_refl in E. discriminate. }
      pose proof (only_step _ _ _ I E) as I1. cbn [th_step] in E. rewrite M, !Nat.eqb_refl in E. cbn [andb] in E.
      pose proof (tracker_nth sha1 p cwd (th_pr s) (PReport k j c) k) as X1. rewrite X in X1. cbn [option_map tracker_after] in X1. rewrite Nat.eqb_refl, J in X1.
      assert (J1 : nth_error (tk_jobs (set_jobs x (update_nth j (fun _ => Reporting r rest) (tk_jobs x)))) j = Some (Reporting r rest)).
      { cbn [set_jobs tk_jobs]. rewrite nth_update, Nat.eqb_refl, J. reflexivity. }
      assert (P1 : th_pr s1 = pr_step sha1 p cwd (th_pr s) (PReport k j c)) by (injection E as <-; reflexivity).
      assert (M1 : th_main s1 = Some (k, j)).
      { apply I1. rewrite P1, reporting_eq, X1. cbn [tracker_reports]. rewrite J1. reflexivity. }
      rewrite <- P1 in X1. refine (IH cs s1 k j _ r M1 X1 J1 _ I1). lia.
  Qed.
  Lemma c78_main_free : forall d hops s k j, threaded sha1 p cwd W d hops s -> th_main s = Some (k, j) ->
    exists n, forall cs, List.length cs = n -> exists s', th_run sha1 p cwd W s (map (fun c => HMain (PReport k j c)) cs) = Some s' /\ th_main s' = None.
  Proof.
    intros d hops s k j R M. pose proof (c78_one_answer _ _ _ R) as I. pose proof (proj2 (I k j) M) as X. rewrite reporting_eq in X.
    destruct (nth_error (pr_trackers (th_pr s)) k) as [x|] eqn:EX; [|discriminate]. cbn [tracker_reports] in X.
    destruct (nth_error (tk_jobs x) j) as [[r|r rest]|] eqn:EJ; try discriminate. exists (S (List.length rest)). intros cs L.
    exact (c78_loop rest cs s k j x r M EX EJ L I).
  Qed.

  (** *** What is passed on *)
  (** What one step of the process does to the two queues of a torrent and to its downloads. *)
  Definition takes (u : nat) (o : pop) : nat := match o with PStart t => if (u =? t)%nat then 1%nat else O | _ => O end.
  Definition writes (u : nat) (o : pop) : nat := match o with PWrite t => if (u =? t)%nat then 1%nat else O | _ => O end.
  Definition moved (a b : nat) (x x' : sys) : Prop := exists n m more more',
    (n <= a)%nat /\ (m <= b)%nat /\ (n <= List.length (sy_queue x))%nat /\ (m <= List.length (sy_writer x))%nat /\
    (n = O \/ more = []) /\ (m = O \/ more' = []) /\ sy_queue x' = skipn n (sy_queue x) ++ more /\ sy_writer x' = skipn m (sy_writer x) ++ more' /\
    forall r, In r (sy_working x') -> In r (sy_working x) \/ In r (firstn n (sy_queue x)).
  Lemma moved_same : forall a b x x', sy_queue x' = sy_queue x -> sy_writer x' = sy_writer x -> (forall r, In r (sy_working x') -> In r (sy_working x)) -> moved a b x x'.
  Proof.
    intros a b x x' Q R K. exists O, O, [], []. rewrite Q, R, !app_nil_r. cbn [skipn]. repeat split; try lia; auto.
  Qed.
  Lemma in_remove : forall A k (l : list A) r, In r (remove_nth k l) -> In r l.
  Proof. induction k as [|k IH]; intros [|a t] r I; cbn [remove_nth] in I; [destruct I|right; exact I|destruct I|]. destruct I as [I|I]; [left; exact I|right; auto]. Qed.
  Lemma moved_op : forall x D o, moved (match o with OStart => 1%nat | _ => O end) (match o with OWrite => 1%nat | _ => O end) x (sys_step sha1 p cwd (set_disk D x) o).
  Proof.
    intros x D o. destruct o as [ep|k f sh| |k net pid fuel|]; cbn [sys_step set_disk sy_actor sy_dead sy_mail sy_queue sy_working sy_workers sy_writer sy_writer_dead sy_trace sy_disk].
    - apply moved_same; auto.
    - destruct (sy_dead x); [apply moved_same; auto|]. destruct (nth_error (sy_mail x) k) as [m|]; [|apply moved_same; auto].
      destruct (handle p f sh (sy_actor x) m) as [[a es]| |]; try (apply moved_same; solve [auto]).
      exists O, O, (requests_of es), (readies_of es). cbn. repeat split; try lia; auto.
    - destruct (sy_queue x) as [|r rest] eqn:E; [apply moved_same; cbn; auto|]. destruct (_ <? _)%nat; [|apply moved_same; cbn; auto].
      exists 1%nat, O, [], []. cbn. rewrite E. cbn. rewrite !app_nil_r. repeat split; try lia; auto.
      intros r' I. apply in_app_iff in I. destruct I as [I|[I|[]]]; auto.
    - destruct (nth_error (sy_working x) k) as [r|]; [|apply moved_same; auto].
      destruct (download sha1 p fuel net pid (rq_endpoint r) (rq_info r) (rq_idx r)) as [[piece|e]| |];
        (apply moved_same; cbn; auto; intros r'; apply in_remove).
    - destruct (sy_writer_dead x); [apply moved_same; auto|]. destruct (sy_writer x) as [|r rest] eqn:E; [apply moved_same; cbn; auto|].
      destruct (write p cwd D (rd_piece r) (rd_idx r) (rd_files r) (rd_piece_length r)); try (apply moved_same; cbn; solve [auto]);
        (exists O, 1%nat, [], []; cbn; rewrite E; cbn; rewrite !app_nil_r; repeat split; try lia; auto).
  Qed.
  Lemma moved_more : forall a b a' b' x x', (a <= a')%nat -> (b <= b')%nat -> moved a b x x' -> moved a' b' x x'.
  Proof. intros a b a' b' x x' A B (n & m & q & w & H1 & H2 & H). exists n, m, q, w. split; [lia|]. split; [lia|]. exact H. Qed.
  Lemma moved_torrent : forall s t o u x, nth_error (pr_torrents s) u = Some x ->
    exists x', nth_error (pr_torrents (torrent_step sha1 p cwd s t o)) u = Some x' /\
      moved (if (u =? t)%nat then match o with OStart => 1%nat | _ => O end else O) (if (u =? t)%nat then match o with OWrite => 1%nat | _ => O end else O) x x'.
  Proof.
    intros s t o u x E. rewrite torrent_nth, E. destruct (Nat.eqb_spec u t) as [->|NE]; cbn [option_map].
    - eexists. split; [reflexivity|]. apply moved_op.
    - exists x. split; [reflexivity|apply moved_same; auto].
  Qed.
  Lemma moved_step : forall s o u x, nth_error (pr_torrents s) u = Some x ->
    exists x', nth_error (pr_torrents (pr_step sha1 p cwd s o)) u = Some x' /\ moved (takes u o) (writes u o) x x'.
  Proof.
    intros s o u x E.
    assert (Same : forall a b, exists x', nth_error (pr_torrents s) u = Some x' /\ moved a b x x') by (intros; exists x; split; [exact E|apply moved_same; auto]).
    assert (T : forall s1 t o', pr_torrents s1 = pr_torrents s -> (forall k, o' <> OStart /\ o' <> OWrite \/ k = 0%nat) ->
      exists x', nth_error (pr_torrents (torrent_step sha1 p cwd s1 t o')) u = Some x' /\ moved 0 0 x x').
    { intros s1 t o' Q N. rewrite <- Q in E. destruct (moved_torrent s1 t o' u x E) as (x' & X & M). exists x'. split; [exact X|].
      refine (moved_more _ _ _ _ _ _ _ _ M); destruct (N 1%nat) as [[A B]|]; try discriminate; destruct (u =? t)%nat; destruct o'; try lia; congruence. }
    destruct o as [raw full|full|k|k j e|k j c|t k acc fuel net pid sh|t|t i net pid fuel|t]; cbn [pr_step takes writes] in *.
    - destruct (add_cases p full raw s) as [(h & _ & _ & ->)|(_ & _ & ->)]; [|apply Same]. cbn [pr_torrents].
      exists x. split; [|apply moved_same; auto]. rewrite nth_error_app1; [exact E|]. apply nth_error_Some. congruence.
    - destruct (pr_interface s); apply Same.
    - apply Same.
    - apply Same.
    - destruct (nth_error (pr_trackers s) k) as [y|]; [|apply Same]. destruct (nth_error (tk_jobs y) j) as [[r|r [|e rest]]|]; try apply Same.
      destruct (is_reachable c (endpoint e)); [|apply Same]. apply T; [reflexivity|]. left. split; discriminate.
    - destruct (nth_error (pr_torrents s) t) as [y|]; [|apply Same].
      assert (G : forall s1 f, pr_torrents s1 = pr_torrents s -> exists x', nth_error (pr_torrents (torrent_step sha1 p cwd s1 t (OHandle k f sh))) u = Some x' /\ moved 0 0 x x').
      { intros s1 f Q. apply T; [exact Q|]. left. split; discriminate. }
      destruct (nth_error (sy_mail y) k) as [[ep|ep piece idx|ep idx]|]; try (apply G; reflexivity).
      destruct (ta_info (sy_actor y)); try (apply G; reflexivity). destruct (sy_dead y); try (apply G; reflexivity).
      destruct (collect_info acc fuel cwd (pr_disk s) net pid (ta_info_hash (sy_actor y)) ep) as [[f d]| |]; try (apply G; reflexivity). apply Same.
    - destruct (moved_torrent s t OStart u x E) as (x' & X & M). exists x'. split; [exact X|]. destruct (u =? t)%nat; exact M.
    - apply T; [reflexivity|]. left. split; discriminate.
    - destruct (moved_torrent s t OWrite u x E) as (x' & X & M). exists x'. split; [exact X|]. destruct (u =? t)%nat; exact M.
  Qed.

  (** What has been passed on is waiting. *)
  Definition counted (s : threads) : Prop := forall t, (th_requests s t <= queued (th_pr s) t)%nat /\ (th_pieces s t <= unwritten (th_pr s) t)%nat.
  Definition took (s s' : threads) (t : nat) (x x' : sys) : Prop := exists n m more more',
    (n + th_requests s' t)%nat = th_requests s t /\ (m + th_pieces s' t)%nat = th_pieces s t /\
    sy_queue x' = skipn n (sy_queue x) ++ more /\ sy_writer x' = skipn m (sy_writer x) ++ more' /\
    forall r, In r (sy_working x') -> In r (sy_working x) \/ In r (firstn n (sy_queue x)).
  Lemma took_same : forall s s' o t x, th_requests s' = th_requests s -> th_pieces s' = th_pieces s -> takes t o = O -> writes t o = O ->
    nth_error (pr_torrents (th_pr s)) t = Some x -> th_pr s' = pr_step sha1 p cwd (th_pr s) o ->
    exists x', nth_error (pr_torrents (th_pr s')) t = Some x' /\ took s s' t x x'.
  Proof.
    intros s s' o t x A B T V X Q. rewrite Q. destruct (moved_step (th_pr s) o t x X) as (x' & X' & M). exists x'. split; [exact X'|].
    destruct M as (n & m & q & w & H1 & H2 & _ & _ & _ & _ & H3 & H4 & H5). exists n, m, q, w. rewrite A, B. repeat split; auto; lia.
  Qed.
  Lemma length_left : forall A n (q q' more : list A), (n <= List.length q)%nat -> n = O \/ more = [] -> q' = skipn n q ++ more ->
    (List.length q - List.length q')%nat = n.
  Proof. intros A n q q' more L E ->. rewrite app_length, skipn_length. destruct E as [->| ->]; cbn [List.length]; lia. Qed.
  Lemma took_step : forall s h s', counted s -> th_step sha1 p cwd W s h = Some s' -> (forall t pc, h <> HPass t pc) ->
    forall t x, nth_error (pr_torrents (th_pr s)) t = Some x -> exists x', nth_error (pr_torrents (th_pr s')) t = Some x' /\ took s s' t x x'.
  Proof.
    intros s h s' C H N u x X. destruct h as [w raw full|t k net pid|w acc fuel sh|o|t pc|o]; cbn [th_step] in *.
    - destruct ((w <? W)%nat && idle (th_held s w)); [|discriminate]. injection H as <-. apply (took_same _ _ (PAdd raw full)); auto.
    - destruct (nth_error (th_home s) t); [|discriminate]. destruct (nth_error (pr_torrents (th_pr s)) t) as [y|]; [|discriminate].
      destruct (idle _ && _ && _)%bool; [|discriminate]. injection H as <-. exists x. split; [exact X|]. exists O, O, [], [].
      rewrite !app_nil_r. repeat split; auto.
    - destruct (th_held s w) as [se|]; [|discriminate]. destruct (answered fuel se); [|discriminate]. injection H as <-.
      apply (took_same _ _ (PHandle (se_torrent se) (se_mail se) acc fuel (se_net se) (se_pid se) sh)); auto.
    - assert (G : takes u o = O /\ writes u o = O /\ th_requests s' = th_requests s /\ th_pieces s' = th_pieces s /\ th_pr s' = pr_step sha1 p cwd (th_pr s) o).
      { destruct o; destruct (th_main s) as [[k' j']|]; try discriminate; try (injection H as <-; repeat split; reflexivity).
        destruct ((k =? k')%nat && (j =? j')%nat); [|discriminate]. injection H as <-. repeat split; reflexivity. }
      destruct G as (A & B & D & E & F). apply (took_same _ _ o); auto.
    - exfalso. exact (N t pc eq_refl).
    - destruct o as [raw full|full|k|k j e|k j c|t k acc fuel net pid sh|t|t i net pid fuel|t]; try discriminate.
      + destruct (Nat.ltb_spec 0 (th_requests s t)) as [L|]; [|discriminate]. injection H as <-. cbn [th_pr]. unfold step_pr.
        destruct (moved_step (th_pr s) (PStart t) u x X) as (x' & X' & M). exists x'. split; [exact X'|].
        destruct M as (n & m & q & w & H1 & H2 & H3 & _ & H4 & _ & H5 & H6 & H7). exists n, m, q, w. cbn [th_requests th_pieces takes writes] in *.
        assert (m = O) as -> by lia. repeat split; auto. unfold set_count. destruct (Nat.eqb_spec u t) as [->|NE]; [|lia].
        cbn [pr_step] in X'. unfold queued, step_pr. cbn [pr_step]. rewrite X, X', (length_left _ _ _ _ _ H3 H4 H5). lia.
      + injection H as <-. apply (took_same _ _ (PFinish t i net pid fuel)); auto.
      + destruct (Nat.ltb_spec 0 (th_pieces s t)) as [L|]; [|discriminate]. injection H as <-. cbn [th_pr]. unfold step_pr.
        destruct (moved_step (th_pr s) (PWrite t) u x X) as (x' & X' & M). exists x'. split; [exact X'|].
        destruct M as (n & m & q & w & H1 & H2 & _ & H3 & _ & H4 & H5 & H6 & H7). exists n, m, q, w. cbn [th_requests th_pieces takes writes] in *.
        assert (n = O) as -> by lia. repeat split; auto. unfold set_count. destruct (Nat.eqb_spec u t) as [->|NE]; [|lia].
        cbn [pr_step] in X'. unfold unwritten, step_pr. cbn [pr_step]. rewrite X, X', (length_left _ _ _ _ _ H3 H4 H6). lia.
  Qed.
  Lemma fewer : forall s h s', th_step sha1 p cwd W s h = Some s' -> (forall t pc, h <> HPass t pc) ->
    forall t, (th_requests s' t <= th_requests s t)%nat /\ (th_pieces s' t <= th_pieces s t)%nat.
  Proof.
    intros s h s' H N u. destruct h as [w raw full|t k net pid|w acc fuel sh|o|t pc|o]; cbn [th_step] in *.
    - destruct ((w <? W)%nat && idle (th_held s w)); [|discriminate]. injection H as <-. split; reflexivity.
    - destruct (nth_error (th_home s) t); [|discriminate]. destruct (nth_error (pr_torrents (th_pr s)) t) as [y|]; [|discriminate].
      destruct (idle _ && _ && _)%bool; [|discriminate]. injection H as <-. split; reflexivity.
    - destruct (th_held s w) as [se|]; [|discriminate]. destruct (answered fuel se); [|discriminate]. injection H as <-. split; reflexivity.
    - destruct o; destruct (th_main s) as [[k' j']|]; try discriminate; try (injection H as <-; split; reflexivity).
      destruct ((k =? k')%nat && (j =? j')%nat); [|discriminate]. injection H as <-. split; reflexivity.
    - exfalso. exact (N t pc eq_refl).
    - destruct o; try discriminate.
      + destruct (0 <? th_requests s t)%nat; [|discriminate]. injection H as <-. cbn [th_requests th_pieces]. unfold set_count.
        destruct (Nat.eqb_spec u t) as [->|]; split; lia.
      + injection H as <-. split; reflexivity.
      + destruct (0 <? th_pieces s t)%nat; [|discriminate]. injection H as <-. cbn [th_requests th_pieces]. unfold set_count.
        destruct (Nat.eqb_spec u t) as [->|]; split; lia.
  Qed.
  Lemma counted_step : forall s h s', counted s -> th_step sha1 p cwd W s h = Some s' -> counted s'.
  Proof.
    intros s h s' C H. destruct (match h with HPass _ _ => true | _ => false end) eqn:K.
    - destruct h as [w raw full|t k net pid|w acc fuel sh|o|t pc|o]; try discriminate. cbn [th_step] in H. destruct (th_main s); [discriminate|]. injection H as <-.
      intros u. specialize (C u). cbn [th_requests th_pieces th_pr]. unfold set_count. destruct pc; destruct (Nat.eqb_spec u t) as [->|]; lia.
    - assert (N : forall t pc, h <> HPass t pc) by (intros t pc ->; discriminate). intros u. destruct (nth_error (pr_torrents (th_pr s)) u) as [x|] eqn:X.
      + destruct (took_step _ _ _ C H N u x X) as (x' & X' & n & m & q & w & A & B & D & E & _). specialize (C u). unfold queued, unwritten in *.
        rewrite X in C. rewrite X', D, E, !app_length, !skipn_length. lia.
      + destruct (fewer _ _ _ H N u) as [A B]. specialize (C u). unfold queued, unwritten in *. rewrite X in C. lia.
  Qed.
  Lemma counted_run : forall hops s s', counted s -> th_run sha1 p cwd W s hops = Some s' -> counted s'.
  Proof.
    induction hops as [|h t IH]; intros s s' I H; cbn [th_run] in H; [injection H as <-; exact I|].
    destruct (th_step sha1 p cwd W s h) as [s1|] eqn:E; [|discriminate]. exact (IH _ _ (counted_step _ _ _ I E) H).
  Qed.
  Lemma c78_counted : forall d hops s, threaded sha1 p cwd W d hops s -> forall t,
    (th_requests s t <= queued (th_pr s) t)%nat /\ (th_pieces s t <= unwritten (th_pr s) t)%nat.
  Proof. intros d hops s [_ R]. refine (counted_run _ _ _ _ R). intros t. cbn. split; apply Nat.le_0_l. Qed.
  Lemma c78_pass : forall s t, th_main s = None -> exists s', th_run sha1 p cwd W s [HPass t false; HPass t true] = Some s' /\
    th_pr s' = th_pr s /\ th_home s' = th_home s /\ th_main s' = None /\ th_held s' = th_held s /\
    th_requests s' t = queued (th_pr s) t /\ th_pieces s' t = unwritten (th_pr s) t.
  Proof.
    intros s t M. eexists. split; [cbn [th_run th_step]; rewrite M; cbn [th_main]; reflexivity|]. cbn. unfold set_count. rewrite Nat.eqb_refl. repeat split.
  Qed.

  (** Steps that pass nothing on. *)
  Lemma firstn_more : forall A n m (q : list A), firstn (n + m) q = firstn n q ++ firstn m (skipn n q).
  Proof. induction n as [|n IH]; intros m q; [reflexivity|]. destruct q as [|a q]; cbn; [rewrite !firstn_nil; reflexivity|]. rewrite IH. reflexivity. Qed.
  Lemma skipn_more : forall A n m (q : list A), skipn m (skipn n q) = skipn (n + m) q.
  Proof. induction n as [|n IH]; intros m q; [reflexivity|]. destruct q as [|a q]; cbn [skipn Nat.add]; [destruct m; reflexivity|]. apply IH. Qed.
  Lemma took_trans : forall s1 s2 s3 t x y z, counted s1 -> nth_error (pr_torrents (th_pr s1)) t = Some x -> took s1 s2 t x y -> took s2 s3 t y z -> took s1 s3 t x z.
  Proof.
    intros s1 s2 s3 t x y z C X (n & m & q & w & A & B & D & E & F) (n' & m' & q' & w' & A' & B' & D' & E' & F').
    exists (n + n')%nat, (m + m')%nat, (skipn (n' - List.length (skipn n (sy_queue x))) q ++ q'), (skipn (m' - List.length (skipn m (sy_writer x))) w ++ w').
    split; [lia|]. split; [lia|]. split; [rewrite D', D, skipn_app, skipn_more, app_assoc; reflexivity|].
    split; [rewrite E', E, skipn_app, skipn_more, app_assoc; reflexivity|]. intros r I. rewrite firstn_more, in_app_iff. destruct (F' r I) as [J|J]; [destruct (F r J); auto|].
    rewrite D, firstn_app in J. specialize (C t). unfold queued in C. rewrite X in C.
    replace (n' - List.length (skipn n (sy_queue x)))%nat with O in J by (rewrite skipn_length; lia). cbn [firstn] in J. rewrite app_nil_r in J. auto.
  Qed.
  Lemma took_run : forall hops s s', counted s -> th_run sha1 p cwd W s hops = Some s' -> (forall t pc, ~ In (HPass t pc) hops) ->
    forall t x, nth_error (pr_torrents (th_pr s)) t = Some x -> exists x', nth_error (pr_torrents (th_pr s')) t = Some x' /\ took s s' t x x'.
  Proof.
    induction hops as [|h r IH]; intros s s' C H N t x X; cbn [th_run] in H.
    - injection H as <-. exists x. split; [exact X|]. exists O, O, [], []. rewrite !app_nil_r. repeat split; auto.
    - destruct (th_step sha1 p cwd W s h) as [s1|] eqn:E; [|discriminate].
      assert (N1 : forall t pc, h <> HPass t pc) by (intros u pc ->; exact (N u pc (or_introl eq_refl))).
      destruct (took_step _ _ _ C E N1 t x X) as (y & Y & T1). destruct (IH s1 s' (counted_step _ _ _ C E) H (fun u pc I => N u pc (or_intror I)) t y Y) as (z & Z & T2).
      exists z. split; [exact Z|]. exact (took_trans _ _ _ _ _ _ _ C X T1 T2).
  Qed.
  Lemma passed_run : forall hops s s', counted s -> th_run sha1 p cwd W s hops = Some s' -> (forall t pc, ~ In (HPass t pc) hops) -> forall t, only_passed s s' t.
  Proof.
    intros hops s s' C H N t x X. destruct (took_run _ _ _ C H N t x X) as (x' & X' & n & m & q & w & A & B & D & E & F). exists x'. split; [exact X'|].
    split; [|split; [exists n, q; split; [lia|exact D]|exists m, w; split; [lia|exact E]]]. intros r I. destruct (F r I) as [J|J]; [auto|]. right.
    rewrite <- A, firstn_more, in_app_iff. auto.
  Qed.
  (** The main thread as long as it is occupied with an answer. *)
  Lemma left_step : forall s h s' k j, only (th_pr s) (th_main s) -> th_main s = Some (k, j) -> th_step sha1 p cwd W s h = Some s' ->
    (main_steps [h] <= peers_left (th_pr s) k j)%nat ->
    th_main s' = Some (k, j) /\ (main_steps [h] + peers_left (th_pr s') k j)%nat = peers_left (th_pr s) k j /\ forall t pc, h <> HPass t pc.
  Proof.
    intros s h s' k j I M H L.
    assert (K : forall o, match o with PInterface _ | PTake _ | PLookup _ _ _ | PReport _ _ _ => False | _ => True end -> th_pr s' = pr_step sha1 p cwd (th_pr s) o -> peers_left (th_pr s') k j = peers_left (th_pr s) k j).
    { intros o NT ->. unfold peers_left. assert (Q : pr_trackers (pr_step sha1 p cwd (th_pr s) o) = pr_trackers (th_pr s)); [|rewrite Q; reflexivity].
      destruct o as [raw full|full|k1|k1 j1 e|k1 j1 c|t k1 acc fuel net pid sh|t|t i net pid fuel|t]; try destruct NT.
      - cbn [pr_step]. destruct (add_cases p full raw (th_pr s)) as [(h0 & _ & _ & ->)|(_ & _ & ->)]; reflexivity.
      - exact (proj1 (quiet_step sha1 p cwd (th_pr s) (PHandle t k1 acc fuel net pid sh))).
      - exact (proj1 (quiet_step sha1 p cwd (th_pr s) (PStart t))).
      - exact (proj1 (quiet_step sha1 p cwd (th_pr s) (PFinish t i net pid fuel))).
      - exact (proj1 (quiet_step sha1 p cwd (th_pr s) (PWrite t))). }
    pose proof (only_step _ _ _ I H) as I'.
    destruct h as [w raw full|t k0 net pid|w acc fuel sh|o|t pc|o].
    - cbn [th_step] in H. destruct ((w <? W)%nat && idle (th_held s w)); [|discriminate]. injection H as <-.
      split; [exact M|]. split; [exact (K (PAdd raw full) Logic.I eq_refl)|discriminate].
    - cbn [th_step] in H. destruct (nth_error (th_home s) t); [|discriminate]. destruct (nth_error (pr_torrents (th_pr s)) t) as [y|]; [|discriminate].
      destruct (idle _ && _ && _)%bool; [|discriminate]. injection H as <-. split; [exact M|]. split; [reflexivity|discriminate].
    - cbn [th_step] in H. destruct (th_held s w) as [se|]; [|discriminate]. destruct (answered fuel se); [|discriminate]. injection H as <-.
      split; [exact M|]. split; [exact (K (PHandle (se_torrent se) (se_mail se) acc fuel (se_net se) (se_pid se) sh) Logic.I eq_refl)|discriminate].
    - cbn [th_step] in H. rewrite M in H. destruct o as [raw full|full|k1|k1 j1 e|k1 j1 c|t k1 acc fuel net pid sh|t|t i net pid fuel|t]; try discriminate.
      destruct (Nat.eqb_spec k1 k) as [->|]; [|discriminate]. destruct (Nat.eqb_spec j1 j) as [->|]; [|discriminate]. cbn [andb] in H.
      change (main_steps [HMain (PReport k j c)]) with 1%nat in *.
      assert (P : th_pr s' = pr_step sha1 p cwd (th_pr s) (PReport k j c)) by (injection H as <-; reflexivity). clear H.
      pose proof (tracker_nth sha1 p cwd (th_pr s) (PReport k j c) k) as X1. rewrite <- P in X1. unfold peers_left in *.
      destruct (nth_error (pr_trackers (th_pr s)) k) as [x|]; [|lia]. cbn [option_map tracker_after] in X1. rewrite Nat.eqb_refl in X1. rewrite X1.
      destruct (nth_error (tk_jobs x) j) as [[r|r [|e rest]]|] eqn:J; cbn [List.length] in L; try lia.
      cbn [set_jobs tk_jobs]. rewrite nth_update, Nat.eqb_refl, J. cbn [option_map List.length].
      split; [|split; [lia|discriminate]]. apply I'. rewrite reporting_eq, X1. cbn [tracker_reports set_jobs tk_jobs]. rewrite nth_update, Nat.eqb_refl, J. reflexivity.
    - exfalso. destruct (pass_step _ _ _ _ H) as (_ & _ & _ & _ & N). congruence.
    - destruct (own_step _ _ _ H) as (A & B & _ & _ & D). split; [congruence|]. split; [|discriminate]. cbn. apply (K o); [|exact B]. destruct o; try discriminate A; exact Logic.I.
  Qed.
  Lemma left_run : forall hops s s' k j, only (th_pr s) (th_main s) -> th_main s = Some (k, j) -> th_run sha1 p cwd W s hops = Some s' ->
    (main_steps hops <= peers_left (th_pr s) k j)%nat -> th_main s' = Some (k, j) /\ forall t pc, ~ In (HPass t pc) hops.
  Proof.
    induction hops as [|h r IH]; intros s s' k j I M H L; cbn [th_run] in H.
    - injection H as <-. split; [exact M|]. intros ? ? [].
    - destruct (th_step sha1 p cwd W s h) as [s1|] eqn:E; [|discriminate].
      assert (LL : main_steps (h :: r) = (main_steps [h] + main_steps r)%nat).
      { unfold main_steps. cbn [filter]. destruct h; reflexivity. }
      destruct (left_step s h s1 k j I M E ltac:(lia)) as (M1 & L1 & N1).
      destruct (IH s1 s' k j (only_step _ _ _ I E) M1 H ltac:(lia)) as (M2 & N2). split; [exact M2|].
      intros t pc [X|X]; [exact (N1 _ _ X)|exact (N2 _ _ X)].
  Qed.
  Lemma c78_downloads_wait : forall d hops s k j hops' s', threaded sha1 p cwd W d hops s -> th_main s = Some (k, j) ->
    th_run sha1 p cwd W s hops' = Some s' -> (main_steps hops' <= peers_left (th_pr s) k j)%nat ->
    th_main s' = Some (k, j) /\ forall t, only_passed s s' t.
  Proof.
    intros d hops s k j hops' s' R M H L. destruct (left_run hops' s s' k j (c78_one_answer _ _ _ R) M H L) as [A N]. split; [exact A|].
    exact (passed_run _ _ _ (c78_counted _ _ _ R) H N).
  Qed.

  (** *** When all workers are lost *)
  Lemma disk_step : forall s o, (forall t k a f net pid sh, o <> PHandle t k a f net pid sh) ->
    (forall t x, nth_error (pr_torrents s) t = Some x -> sy_writer x = []) -> pr_disk (pr_step sha1 p cwd s o) = pr_disk s.
  Proof.
    intros s o N E.
    assert (T : forall s1 t o', pr_torrents s1 = pr_torrents s -> pr_disk s1 = pr_disk s -> pr_disk (torrent_step sha1 p cwd s1 t o') = pr_disk s).
    { intros s1 t o' A B. unfold torrent_step. rewrite A. destruct (nth_error (pr_torrents s) t) as [x|] eqn:EX; [|exact B]. cbn [pr_disk].
      specialize (E t x EX). rewrite B. destruct o' as [ep|k f sh| |k net pid fuel|]; cbn [sys_step set_disk sy_dead sy_mail sy_queue sy_working sy_writer sy_writer_dead sy_actor sy_disk].
      - reflexivity.
      - destruct (sy_dead x); [reflexivity|]. destruct (nth_error (sy_mail x) k); [|reflexivity]. destruct (handle p f sh (sy_actor x) t0) as [[a es]| |]; reflexivity.
      - destruct (sy_queue x); [reflexivity|]. destruct (_ <? _)%nat; reflexivity.
      - destruct (nth_error (sy_working x) k) as [r|]; [|reflexivity]. destruct (download sha1 p fuel net pid (rq_endpoint r) (rq_info r) (rq_idx r)) as [[piece|e]| |]; reflexivity.
      - destruct (sy_writer_dead x); [reflexivity|]. rewrite E. reflexivity. }
    destruct o as [raw full|full|k|k j e|k j c|t k acc fuel net pid sh|t|t i net pid fuel|t]; cbn [pr_step].
    - destruct (add_cases p full raw s) as [(h & _ & _ & ->)|(_ & _ & ->)]; reflexivity.
    - destruct (pr_interface s); reflexivity.
    - reflexivity.
    - reflexivity.
    - destruct (nth_error (pr_trackers s) k) as [y|]; [|reflexivity]. destruct (nth_error (tk_jobs y) j) as [[r|r [|e rest]]|]; try reflexivity.
      destruct (is_reachable c (endpoint e)); [|reflexivity]. apply T; reflexivity.
    - exfalso. exact (N _ _ _ _ _ _ _ eq_refl).
    - apply T; reflexivity.
    - apply T; reflexivity.
    - apply T; reflexivity.
  Qed.
  Definition lost_all (s : threads) : Prop := forall w, (w < W)%nat -> lost s w.
  Definition on_workers (s : threads) : Prop := forall t w, lives_on s t w -> (w < W)%nat.
  Lemma on_step : forall s h s', on_workers s -> th_step sha1 p cwd W s h = Some s' -> on_workers s'.
  Proof.
    intros s h s' O H. destruct h as [w raw full|t k net pid|w acc fuel sh|o|t pc|o]; try (apply own_step in H); try (apply pass_step in H); cbn [th_step] in *.
    - destruct (Nat.ltb_spec w W) as [L|]; [|discriminate]. destruct (idle (th_held s w)); [|discriminate]. cbn [andb] in H. injection H as <-.
      intros t v. unfold lives_on. cbn [th_home]. intros X. apply nth_error_In, in_app_iff in X as [X|X].
      + apply in_nth in X as (u & X). exact (O u v X).
      + apply repeat_spec in X. subst v. exact L.
    - destruct (nth_error (th_home s) t); [|discriminate]. destruct (nth_error (pr_torrents (th_pr s)) t) as [x|]; [|discriminate].
      destruct (idle _ && _ && _)%bool; [|discriminate]. injection H as <-. exact O.
    - destruct (th_held s w) as [se|]; [|discriminate]. destruct (answered fuel se); [|discriminate]. injection H as <-. exact O.
    - destruct o; destruct (th_main s) as [[k' j']|]; try discriminate; try (injection H as <-; exact O).
      destruct ((k =? k')%nat && (j =? j')%nat); [|discriminate]. injection H as <-. exact O.
    - destruct H as (_ & A & _). unfold on_workers, lives_on. rewrite A. exact O.
    - destruct H as (_ & _ & A & _). unfold on_workers, lives_on. rewrite A. exact O.
  Qed.
  Lemma on_run : forall hops s s', on_workers s -> th_run sha1 p cwd W s hops = Some s' -> on_workers s'.
  Proof.
    induction hops as [|h t IH]; intros s s' I H; cbn [th_run] in H; [injection H as <-; exact I|].
    destruct (th_step sha1 p cwd W s h) as [s1|] eqn:E; [|discriminate]. exact (IH _ _ (on_step _ _ _ I E) H).
  Qed.
  Lemma lost_step : forall s h s', housed s -> on_workers s -> lost_all s -> th_step sha1 p cwd W s h = Some s' -> lost_all s' /\
    ((forall t x, nth_error (pr_torrents (th_pr s)) t = Some x -> sy_writer x = []) ->
     (forall t x, nth_error (pr_torrents (th_pr s')) t = Some x -> sy_writer x = []) /\ pr_disk (th_pr s') = pr_disk (th_pr s)) /\
    List.length (pr_torrents (th_pr s')) = List.length (pr_torrents (th_pr s)) /\ (forall w raw full, h <> HRequest w raw full).
  Proof.
    intros s h s' I O A H.
    assert (ST : forall w, (w < W)%nat -> ~ ends_session w h /\ lost s' w /\ stood_still w s s' /\ ~ asks_worker w h).
    { intros w L. destruct (A w L) as (se & hh & ep & E & B & N).
      assert (NE : ~ ends_session w h).
      { assert (H1 : th_run sha1 p cwd W s [h] = Some s') by (cbn [th_run]; rewrite H; reflexivity).
        pose proof (no_end [h] s s' w se hh ep I E B N H1) as F. inversion F. auto. }
      destruct (still_step _ _ _ _ _ I E H NE) as (X & Y & Z). split; [exact NE|]. split; [exists se, hh, ep; auto|auto]. }
    assert (NQ : forall w raw full, h <> HRequest w raw full).
    { intros w raw full ->. cbn [th_step] in H. destruct (Nat.ltb_spec w W) as [L|]; [|discriminate]. destruct (ST w L) as (_ & _ & _ & Z). exact (Z eq_refl). }
    assert (NH : forall w a f sh, h <> HEnd w a f sh).
    { intros w a f sh ->. destruct (Nat.lt_ge_cases w W) as [L|G]; [exact (proj1 (ST w L) eq_refl)|].
      cbn [th_step] in H. destruct (th_held s w) as [se|] eqn:E; [|discriminate]. pose proof (O _ _ (proj2 I w se E)). lia. }
    destruct (housed_step _ _ _ I H) as [L' O']. destruct I as [L0 O0].
    assert (LT : List.length (pr_torrents (th_pr s')) = List.length (pr_torrents (th_pr s))).
    { pose proof (step_pops _ _ _ H) as SP. rewrite SP. destruct h as [w raw full|t k net pid|w acc fuel sh|o|t pc|o]; [destruct (NQ _ _ _ eq_refl)|reflexivity|destruct (NH _ _ _ _ eq_refl)| |reflexivity|apply own_step in H as [H _]];
        cbn [pop_at pr_run fold_left]; apply not_add_length; destruct o; try reflexivity; exfalso; cbn [th_step] in H; [destruct (th_main s) as [[? ?]|]|]; discriminate. }
    split; [intros w L; exact (proj1 (proj2 (ST w L)))|]. split; [|split; [exact LT|exact NQ]].
    intros E. split.
    - intros t x' X'. assert (T : (t < List.length (pr_torrents (th_pr s)))%nat) by (rewrite <- LT; apply nth_error_Some; congruence).
      destruct (nth_error (pr_torrents (th_pr s)) t) as [x|] eqn:X; [|apply nth_error_None in X; lia].
      destruct (nth_error (th_home s) t) as [w|] eqn:HO; [|apply nth_error_None in HO; lia].
      destruct (ST w (O t w HO)) as (_ & _ & [_ SS] & _). destruct (SS t x HO X) as (y & Y & _ & _ & _ & _ & (f & F)).
      rewrite X' in Y. injection Y as <-. rewrite (E t x X) in F. symmetry in F. apply app_eq_nil in F as [_ F]. exact F.
    - rewrite (step_pops _ _ _ H). destruct h as [w raw full|t k net pid|w acc fuel sh|o|t pc|o]; [destruct (NQ _ _ _ eq_refl)|reflexivity|destruct (NH _ _ _ _ eq_refl)| |reflexivity|apply own_step in H as [H _]];
        cbn [pop_at pr_run fold_left]; (apply disk_step; [|exact E]); intros; intros ->; cbn [th_step] in H; [destruct (th_main s) as [[? ?]|]|]; discriminate.
  Qed.
  Lemma c78_all_lost : forall d hops s hops' s', threaded sha1 p cwd W d hops s -> (forall w, (w < W)%nat -> lost s w) ->
    (forall t x, nth_error (pr_torrents (th_pr s)) t = Some x -> sy_writer x = []) -> th_run sha1 p cwd W s hops' = Some s' ->
    pr_disk (th_pr s') = pr_disk (th_pr s) /\ List.length (pr_torrents (th_pr s')) = List.length (pr_torrents (th_pr s)) /\
    forall w raw full, ~ In (HRequest w raw full) hops'.
  Proof.
    intros d hops s hops' s' R A E H. pose proof (housed_started _ _ _ R) as I.
    assert (O : on_workers s). { destruct R as [_ R]. refine (on_run _ _ _ _ R). intros t w X. unfold lives_on in X. cbn in X. destruct t; discriminate. }
    clear R. revert s I O A E H. induction hops' as [|h t IH]; intros s I O A E H; cbn [th_run] in H.
    - injection H as <-. repeat split. intros ? ? ? [].
    - destruct (th_step sha1 p cwd W s h) as [s1|] eqn:ES; [|discriminate]. destruct (lost_step _ _ _ I O A ES) as (A1 & B1 & C1 & D1). destruct (B1 E) as [E1 F1].
      destruct (IH s1 (housed_step _ _ _ I ES) (on_step _ _ _ O ES) A1 E1 H) as (X & Y & Z). split; [congruence|]. split; [congruence|].
      intros w raw full [Q|Q]; [exact (D1 _ _ _ Q)|exact (Z _ _ _ Q)].
  Qed.
End P.

(** *** When a peer never lets go *)
Lemma execute_more : forall f f' flt next x b i r, execute f flt next x b i = r -> r <> OutOfFuel -> (f <= f')%nat -> execute f' flt next x b i = r.
Proof.
  induction f as [|f IH]; intros f' flt next x b i r H N L; [cbn in H; congruence|]. destruct f' as [|f']; [lia|]. cbn [execute] in *.
  destruct (read_message x) as [[m x1]| |]; cbn [obind] in *; try exact H.
  destruct (match m with Some m => (apply_message x1 m, push_message flt b m, 0%N) | None => (x1, b, i) end) as [[x2 b1] idle1].
  destruct (is_full b1); [exact H|]. destruct (is_choked x2); [exact H|].
  destruct (request_next_message next b1 x2) as [[b2 x3]| |]; cbn [obind] in *; try exact H.
  destruct (10 <? idle1 + 1)%N; [exact H|]. apply (IH f'); [exact H|exact N|lia].
Qed.
Lemma get_info_more : forall f f' net pid h ep r, get_info f net pid h ep = r -> r <> OutOfFuel -> (f <= f')%nat -> get_info f' net pid h ep = r.
Proof.
  intros f f' net pid h ep r H N L. unfold get_info in *. unfold orbind in *.
  destruct (connect net ep) as [[s|e]| |]; cbn [obind] in *; try exact H.
  destruct (init_peer (peer_new pid s h)) as [[[u|e] x1]| |]; cbn [obind] in *; try exact H. unfold download_info in *.
  destruct (step_by_len (get_metadata_size x1) INFO_PIECE_SIZE) as [cap| |]; cbn [obind] in *; try exact H.
  match goal with |- context [execute f' ?a ?b ?c ?d ?e] => destruct (execute f a b c d e) as [[r0 x2]| |] eqn:E end;
    try (apply (execute_more f f') in E; [|discriminate|exact L]; rewrite E; exact H). cbn [obind] in H. congruence.
Qed.
Lemma c78_when : forall s pid ih ep, parse_socket_addr ep <> None ->
  let cut := third_write_fails s in
  (forall fuel, get_info fuel (Some s) pid ih ep = OutOfFuel) <->
  (exists c, info_pending ih cut c /\ then_hangs s c) \/
  (exists c d, told_by s c /\ info_ends ih cut c (Received d) /\ info_from_bytes d = OutOfFuel).
Proof.
  intros s pid ih ep A cut. subst cut. set (F := S (11 * List.length (incoming s) + 11)).
  assert (EF : (11 * List.length (incoming s) + 11 < F)%nat) by (unfold F; lia).
  destruct (c70_metadata F s pid ih ep A EF) as (_ & _ & H). rewrite <- H. split; [auto|]. intros X fuel.
  destruct (get_info fuel (Some s) pid ih ep) as [r| |] eqn:E; [| |reflexivity]; exfalso.
  - destruct (Nat.le_ge_cases fuel F) as [L|G]; [pose proof (get_info_more _ _ _ _ _ _ _ E ltac:(discriminate) L) as Y; rewrite X in Y; discriminate Y|].
    destruct (c70_metadata fuel s pid ih ep A ltac:(lia)) as (_ & _ & H'). apply H, H' in X. congruence.
  - destruct (Nat.le_ge_cases fuel F) as [L|G]; [pose proof (get_info_more _ _ _ _ _ _ _ E ltac:(discriminate) L) as Y; rewrite X in Y; discriminate Y|].
    destruct (c70_metadata fuel s pid ih ep A ltac:(lia)) as (_ & _ & H'). apply H, H' in X. congruence.
Qed.
