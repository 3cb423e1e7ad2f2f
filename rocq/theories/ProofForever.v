(** ProofForever: proofs for PropForever *)
From Coq Require Import Permutation Lia.
From Verif Require Import Base Utf8 ModelBencode ModelMessages ModelTorrent ModelWriter ModelTracker ModelStream ModelPeer
  ModelActors ModelCache ModelMain ProofBase SpecTorrent SpecWriter SpecPieces SpecSystem ProofSystem SpecMain ProofMain
  SpecWhole ProofWhole SpecForever.

(** ** The torrent alone: what a step does to the agenda, the work left and the failures *)
Lemma failed_app : forall (f : tmsg -> bool) a b, lenN (filter f (a ++ b)) = (lenN (filter f a) + lenN (filter f b))%N.
Proof. intros. rewrite filter_app, lenN_app'. auto. Qed.

Lemma failed_step : forall sha1 p cwd x o, sy_dead (sys_step sha1 p cwd x o) = false ->
  failed_so_far (sys_step sha1 p cwd x o) = (failed_so_far x + if fails sha1 p x o then 1 else 0)%N.
Proof.
  intros sha1 p cwd x o. unfold failed_so_far. destruct o as [ep|k found shuffle| |k net pid fuel|]; cbn [sys_step fails].
  - intros _. cbn [sy_trace sy_mail]. rewrite app_assoc, failed_app. cbn. lia.
  - destruct (sy_dead x) eqn:D; [intros; lia|]. destruct (nth_error (sy_mail x) k) as [m|] eqn:Hm; [|intros; lia].
    destruct (handle p found shuffle (sy_actor x) m) as [[a es]| |]; cbn [sy_dead sy_trace sy_mail]; [|discriminate|intros; lia].
    intros _. rewrite handled_app, handled_sent, <- app_assoc, !failed_app.
    pose proof (filter_perm _ (fun m => match m with PieceDownloadFailed _ _ => true | _ => false end) _ _ (remove_perm _ _ _ _ Hm)) as P.
    apply Permutation_length in P. unfold lenN. rewrite P. change (m :: remove_nth k (sy_mail x)) with ([m] ++ remove_nth k (sy_mail x)).
    rewrite filter_app, app_length. lia.
  - intros _. destruct (sy_queue x); [lia|]. destruct (List.length (sy_working x) <? sy_workers x)%nat; cbn [sy_trace sy_mail]; lia.
  - intros _. destruct (nth_error (sy_working x) k) as [r|]; [|lia].
    destruct (download sha1 p fuel net pid (rq_endpoint r) (rq_info r) (rq_idx r)) as [[piece|e]| |]; cbn [sy_trace sy_mail]; [| | |lia];
      rewrite ?app_nil_r, ?app_assoc, ?failed_app; cbn; lia.
  - intros _. destruct (sy_writer_dead x); [lia|]. destruct (sy_writer x); [lia|].
    destruct (write _ _ _ _ _ _ _); cbn [sy_trace sy_mail]; lia.
Qed.

Lemma inv_agree : forall sha1 p d a b i, agree a b -> ta_info (sy_actor b) = Some i -> inv sha1 p d a -> inv sha1 p d b.
Proof.
  intros sha1 p d a b i (A1 & A2 & A3 & A4 & A5 & A6 & A7) EI H. unfold inv, in_flight, completed in *. rewrite <- A1, <- A2, <- A3, <- A4, <- A5, <- A6, <- A7.
  rewrite A1, EI in H. rewrite A1, EI. exact H.
Qed.

Lemma inv_torrent : forall sha1 p cwd d ops s t x i, started sha1 p cwd d ops s -> nth_error (pr_torrents s) t = Some x ->
  ta_info (sy_actor x) = Some i -> forall D, inv sha1 p d (set_disk D x).
Proof.
  intros sha1 p cwd d ops s t x i R H EI D. destruct (c58_alone _ _ _ _ _ _ R t x H) as (h & s0 & _ & R0 & A).
  apply (inv_agree sha1 p d s0 (set_disk D x) i); [|exact EI|apply (inv_reached _ _ _ _ _ _ R0)].
  exact A.
Qed.

(** ** The trackers: finitely many reports *)
Lemma pending_count : forall sha1 p cwd d ops s o t, started sha1 p cwd d ops s ->
  (List.length (pending t (pr_step sha1 p cwd s o)) + List.length (new_mail s o t)
   <= List.length (pending t s) + List.length (peers_for t (lookup_at s o)))%nat.
Proof.
  intros sha1 p cwd d ops s o t R.
  assert (Same : (forall k x, nth_error (pr_trackers s) k = Some x -> tracker_peers t (tracker_after s o k x) = tracker_peers t x) ->
    new_mail s o t = [] ->
    (List.length (pending t (pr_step sha1 p cwd s o)) + List.length (new_mail s o t)
     <= List.length (pending t s) + List.length (peers_for t (lookup_at s o)))%nat).
  { intros H1 H2. rewrite H2, (pending_same _ _ _ _ _ _ H1). cbn. lia. }
  destruct o; try (apply Same; auto; fail).
  - apply Same; auto. intros k x E. cbn [tracker_after]. destruct (pr_interface s); [auto|]. unfold forward.
    destruct (tk_alive x && negb (full k)); auto.
  - apply Same; auto. intros k0 x E. cbn [tracker_after]. destruct (k0 =? k)%nat; [|auto]. destruct (tk_mail x) as [|r rest]; [auto|].
    unfold tracker_peers. cbn [tk_jobs]. rewrite flat_map_app. cbn. rewrite app_nil_r. auto.
  - destruct (nth_error (pr_trackers s) k) as [x|] eqn:E.
    2:{ apply Same; auto. intros k0 x E0. cbn [tracker_after]. destruct (Nat.eqb_spec k0 k) as [->|]; [congruence|auto]. }
    destruct (lookup_cases s (PLookup k j e) k x E) as [(j' & e' & r & EQ & J & NF & LK)|[LK SAME]].
    + injection EQ as <- <-. rewrite LK.
      destruct (tracker_facts _ _ _ _ _ _ R) as (_ & HT & _). destruct (HT k x E) as (U & _).
      destruct (pending_one sha1 p cwd s (PLookup k j e) t k x E) as (rest & P1 & P2).
      { intros k' x' N. cbn [tracker_after]. rewrite (proj2 (Nat.eqb_neq k' k)) by auto. auto. }
      cbn [tracker_after] in P2. rewrite Nat.eqb_refl, J in P2. unfold tracker_peers in P1, P2.
      apply Permutation_length in P1, P2. rewrite app_length, (Permutation_length (jobs_perm t _ _ _ J)) in P1. cbn [job_peers app] in P1.
      change (new_mail s (PLookup k j e) t) with (@nil bytes). cbn [List.length]. rewrite Nat.add_0_r.
      destruct (lookup e (tk_url x) (rg_hash r)) as [[l|er]| |] eqn:LE; [| | |congruence].
      * rewrite (peers_for_one t k r e (tk_url x) l U) by auto.
        cbn [set_jobs tk_jobs] in P2. rewrite app_length, (Permutation_length (jobs_update t _ _ _ (Reporting r l) J)), app_length in P2. lia.
      * cbn [set_jobs tk_jobs] in P2. rewrite app_length in P2. lia.
      * cbn [tracker_die tk_jobs flat_map app] in P2. lia.
    + apply Same; [|auto]. intros k0 y E0. destruct (Nat.eq_dec k0 k) as [->|N].
      * rewrite E in E0. injection E0 as <-. rewrite (SAME j e eq_refl). auto.
      * cbn [tracker_after]. rewrite (proj2 (Nat.eqb_neq k0 k)) by auto. auto.
  - destruct (nth_error (pr_trackers s) k) as [x|] eqn:E.
    2:{ apply Same; auto.
        - intros k0 x E0. cbn [tracker_after]. destruct (Nat.eqb_spec k0 k) as [->|]; [congruence|auto].
        - cbn [new_mail]. rewrite E. auto. }
    destruct (pending_one sha1 p cwd s (PReport k j connects) t k x E) as (rest & P1 & P2).
    { intros k' x' N. cbn [tracker_after]. rewrite (proj2 (Nat.eqb_neq k' k)) by auto. auto. }
    apply Permutation_length in P1, P2. cbn [tracker_after] in P2. rewrite Nat.eqb_refl in P2. unfold tracker_peers in P1, P2.
    cbn [new_mail]. rewrite E.
    destruct (nth_error (tk_jobs x) j) as [[r|r [|e l]]|] eqn:J.
    + cbn [List.length]. lia.
    + rewrite app_length, (Permutation_length (jobs_perm t _ _ _ J)), app_length in P1.
      cbn [set_jobs tk_jobs] in P2. rewrite app_length in P2. cbn [List.length]. lia.
    + rewrite app_length, (Permutation_length (jobs_perm t _ _ _ J)), app_length in P1.
      cbn [set_jobs tk_jobs] in P2. rewrite app_length, (Permutation_length (jobs_update t _ _ _ (Reporting r l) J)), app_length in P2.
      cbn [job_peers] in P1, P2. destruct (rg_torrent r =? t)%nat; cbn [List.length andb] in *; [destruct (is_reachable connects (endpoint e)); cbn [List.length]|]; lia.
    + cbn [List.length]. lia.
Qed.

(** The lookups on behalf of one torrent. *)
Definition asked_for (t : nat) (l : list lookup_done) : list lookup_done := filter (fun x => (ld_torrent x =? t)%nat) l.

Lemma between_sum : forall t l m, (forall x, In x l -> (ld_tracker x < m)%nat) ->
  (forall k, (List.length (between k t l) <= 1)%nat) -> (List.length (asked_for t l) <= m)%nat.
Proof.
  intros t l m. revert l. induction m as [|m IH]; intros l H B.
  - destruct l as [|x l]; [auto|]. exfalso. specialize (H x (or_introl eq_refl)). lia.
  - assert (S : forall l, (List.length (asked_for t l) = List.length (between m t l) +
      List.length (asked_for t (filter (fun x => negb (ld_tracker x =? m)%nat) l)))%nat).
    { clear. induction l as [|x l IH]; [auto|]. unfold asked_for, between in *. cbn [filter].
      destruct (ld_tracker x =? m)%nat, (ld_torrent x =? t)%nat eqn:T; cbn [negb andb filter List.length] in *; rewrite ?T; cbn [List.length]; lia. }
    rewrite S. specialize (IH (filter (fun x => negb (ld_tracker x =? m)%nat) l)).
    assert (L : (List.length (asked_for t (filter (fun x => negb (ld_tracker x =? m)%nat) l)) <= m)%nat).
    { apply IH.
      - intros x X. apply filter_In in X as [X Y]. specialize (H x X). apply Bool.negb_true_iff, Nat.eqb_neq in Y. lia.
      - intros k. specialize (B k). clear IH H S. unfold between in *. clear -B.
        assert (X : (List.length (filter (fun x => (ld_tracker x =? k)%nat && (ld_torrent x =? t)%nat) (filter (fun x => negb (ld_tracker x =? m)%nat) l))
          <= List.length (filter (fun x => (ld_tracker x =? k)%nat && (ld_torrent x =? t)%nat) l))%nat).
        { clear B. induction l as [|x l IH]; [auto|]. cbn [filter]. destruct (negb (ld_tracker x =? m)%nat); cbn [filter];
            destruct ((ld_tracker x =? k)%nat && (ld_torrent x =? t)%nat); cbn [List.length]; lia. }
        lia. }
    specialize (B m). lia.
Qed.

Lemma asked_bound : forall sha1 p cwd d ops s t, started sha1 p cwd d ops s ->
  (List.length (asked_for t (lookups sha1 p cwd (process_init d) ops)) <= 18)%nat.
Proof.
  intros sha1 p cwd d ops s t R. apply between_sum.
  - intros x X. apply (lookups_known _ _ _ _ _ _ R x X).
  - intros k. apply (c55_once _ _ _ _ _ _ k t R).
Qed.

Lemma asked_none : forall t l, asked_for t l = [] -> peers_for t l = [].
Proof.
  intros t l H. induction l as [|x l IH]; [auto|]. unfold asked_for, peers_for in *. cbn [filter flat_map] in *.
  destruct (ld_torrent x =? t)%nat; [discriminate|]. auto.
Qed.

(** ** One step of the process, and the torrent [t] *)
Lemma state_S : forall sha1 p cwd d ops n,
  state_at sha1 p cwd d ops (S n) = pr_step sha1 p cwd (state_at sha1 p cwd d ops n) (ops n).
Proof. intros. unfold state_at. rewrite seq_S, map_app, run_app. reflexivity. Qed.

Lemma state_started : forall sha1 p cwd d ops n, (forall n, pop_ok (ops n)) ->
  started sha1 p cwd d (map ops (seq 0 n)) (state_at sha1 p cwd d ops n).
Proof. intros. split; [|reflexivity]. apply Forall_forall. intros o O. apply in_map_iff in O as (k & <- & _). auto. Qed.

Definition asks (sha1 : bytes -> bytes) (p : profile) (cwd : loc) (d : fs) (ops : nat -> pop) (t n : nat) : nat :=
  (18 - List.length (asked_for t (lookups sha1 p cwd (process_init d) (map ops (seq 0 n)))))%nat.
Definition todo (B : N) (t : nat) (s : process) (x : sys) : N :=
  (work x + 2 * lenN (pending t s) + 3 * (B - failed_so_far x))%N.

Lemma not_dead : forall sha1 p cwd d ops s t x i, started sha1 p cwd d ops s -> nth_error (pr_torrents s) t = Some x ->
  ta_info (sy_actor x) = Some i -> sy_dead x = false.
Proof.
  intros sha1 p cwd d ops s t x i R H EI. pose proof (inv_torrent _ _ _ _ _ _ _ _ _ R H EI (pr_disk s)) as I. unfold inv in I.
  cbn [set_disk sy_actor] in I. rewrite EI in I. apply I.
Qed.

Lemma step_down : forall sha1 p cwd d ops t B i n x, (forall n, pop_ok (ops n)) ->
  (forall n x, torrent_at sha1 p cwd d ops t n = Some x -> (failed_so_far x <= B)%N) ->
  torrent_at sha1 p cwd d ops t n = Some x -> ta_info (sy_actor x) = Some i ->
  exists x', torrent_at sha1 p cwd d ops t (S n) = Some x' /\ ta_info (sy_actor x') = Some i /\
    let s := state_at sha1 p cwd d ops n in let s' := state_at sha1 p cwd d ops (S n) in
    (asks sha1 p cwd d ops t (S n) < asks sha1 p cwd d ops t n)%nat \/
    asks sha1 p cwd d ops t (S n) = asks sha1 p cwd d ops t n /\
    ((todo B t s' x' < todo B t s x)%N \/ (todo B t s' x' <= todo B t s x)%N /\ agenda x' = agenda x).
Proof.
  intros sha1 p cwd d ops t B i n x OK BF H EI. cbn zeta.
  pose proof (state_started sha1 p cwd d ops n OK) as R. pose proof (state_started sha1 p cwd d ops (S n) OK) as R'.
  destruct (torrent_forward sha1 p cwd _ (ops n) t x H) as (x' & H' & EI' & _). specialize (EI' i EI).
  assert (T' : torrent_at sha1 p cwd d ops t (S n) = Some x') by (unfold torrent_at; rewrite state_S; exact H').
  exists x'. split; [exact T'|]. split; [exact EI'|].
  pose proof (pending_count sha1 p cwd d _ _ (ops n) t R) as PC.
  pose proof (asked_bound sha1 p cwd d _ _ t R') as AB.
  assert (AS : (List.length (asked_for t (lookups sha1 p cwd (process_init d) (map ops (seq 0 (S n)))))
    = List.length (asked_for t (lookups sha1 p cwd (process_init d) (map ops (seq 0 n))))
      + List.length (asked_for t (lookup_at (state_at sha1 p cwd d ops n) (ops n))))%nat).
  { rewrite seq_S, map_app, lookups_app. unfold asked_for. rewrite filter_app, app_length. cbn [map lookups]. rewrite app_nil_r. reflexivity. }
  unfold asks. destruct (asked_for t (lookup_at (state_at sha1 p cwd d ops n) (ops n))) as [|y l] eqn:EA.
  2:{ left. cbn [List.length] in AS. lia. }
  right. split; [cbn [List.length] in AS; lia|]. rewrite (asked_none _ _ EA) in PC. cbn [List.length] in PC. rewrite <- state_S in PC.
  pose proof (BF _ _ H) as B1. pose proof (BF _ _ T') as B2.
  assert (ND : sy_dead x' = false) by (apply (not_dead _ _ _ _ _ _ _ _ _ R' T' EI')).
  destruct (torrent_cases sha1 p cwd _ (ops n) t x' (OK n) H') as [[E NM]|[(x0 & D & o' & E & O' & -> & NM & _)|(raw & full & h & _ & _ & E & _)]].
  - unfold torrent_at in H. rewrite E in H. injection H as <-. right. split; [|auto]. unfold todo, lenN. lia.
  - unfold torrent_at in H. rewrite E in H. injection H as ->.
    pose proof (failed_step sha1 p cwd _ o' ND) as FS. change (failed_so_far (set_disk D x)) with (failed_so_far x) in FS.
    destruct (c46_step_inv sha1 p cwd d (set_disk D x) o' i (inv_torrent _ _ _ _ _ _ _ _ _ R E EI D) O' EI) as [X|[X|[[(ep & ->) X]|[X Y]]]].
    + right. rewrite X. split; [|reflexivity]. unfold todo. change (work (set_disk D x)) with (work x).
      change (failed_so_far (set_disk D x)) with (failed_so_far x). unfold lenN. lia.
    + left. unfold todo. change (work (set_disk D x)) with (work x) in X. unfold lenN.
      destruct (fails sha1 p (set_disk D x) o'); lia.
    + left. unfold todo. change (work (set_disk D x)) with (work x) in X. rewrite X.
      assert (NL : List.length (new_mail (state_at sha1 p cwd d ops n) (ops n) t) = 1%nat) by (rewrite <- NM; reflexivity).
      cbn [fails] in FS. unfold lenN. lia.
    + left. unfold todo. change (work (set_disk D x)) with (work x) in Y. rewrite Y. rewrite X in FS. unfold lenN. lia.
  - exfalso. unfold torrent_at in H. subst t. assert (X : nth_error (pr_torrents (state_at sha1 p cwd d ops n)) (List.length (pr_torrents (state_at sha1 p cwd d ops n))) = None) by (apply nth_error_None; lia). congruence.
Qed.

(** From one moment to a later one. *)
Lemma run_down : forall sha1 p cwd d ops t B i k n x, (forall n, pop_ok (ops n)) ->
  (forall n x, torrent_at sha1 p cwd d ops t n = Some x -> (failed_so_far x <= B)%N) ->
  torrent_at sha1 p cwd d ops t n = Some x -> ta_info (sy_actor x) = Some i ->
  exists x', torrent_at sha1 p cwd d ops t (n + k) = Some x' /\ ta_info (sy_actor x') = Some i /\
    ((asks sha1 p cwd d ops t (n + k) < asks sha1 p cwd d ops t n)%nat \/
     asks sha1 p cwd d ops t (n + k) = asks sha1 p cwd d ops t n /\
     (todo B t (state_at sha1 p cwd d ops (n + k)) x' <= todo B t (state_at sha1 p cwd d ops n) x)%N).
Proof.
  intros sha1 p cwd d ops t B i. induction k as [|k IH]; intros n x OK BF H EI.
  - rewrite Nat.add_0_r. exists x. repeat split; auto. right. split; [auto|lia].
  - destruct (IH n x OK BF H EI) as (y & HY & EY & LE). rewrite Nat.add_succ_r.
    destruct (step_down _ _ _ _ _ _ B i _ _ OK BF HY EY) as (z & HZ & EZ & LZ). exists z. split; [auto|]. split; [auto|]. cbn zeta in LZ. lia.
Qed.

Lemma comes_to_rest : forall sha1 p cwd d ops t B i, (forall n, pop_ok (ops n)) ->
  (forall n x, torrent_at sha1 p cwd d ops t n = Some x -> (failed_so_far x <= B)%N) ->
  never_stuck sha1 p cwd d ops t ->
  forall a m n x, torrent_at sha1 p cwd d ops t n = Some x -> ta_info (sy_actor x) = Some i ->
  (asks sha1 p cwd d ops t n <= a)%nat -> (todo B t (state_at sha1 p cwd d ops n) x <= m)%N ->
  exists n' x', (n <= n')%nat /\ torrent_at sha1 p cwd d ops t n' = Some x' /\ at_rest x'.
Proof.
  intros sha1 p cwd d ops t B i OK BF NS.
  assert (Go : forall a, (forall a', (a' < a)%nat -> forall n x, torrent_at sha1 p cwd d ops t n = Some x -> ta_info (sy_actor x) = Some i ->
      asks sha1 p cwd d ops t n = a' -> exists n' x', (n <= n')%nat /\ torrent_at sha1 p cwd d ops t n' = Some x' /\ at_rest x') ->
    forall m n x, torrent_at sha1 p cwd d ops t n = Some x -> ta_info (sy_actor x) = Some i ->
      asks sha1 p cwd d ops t n = a -> todo B t (state_at sha1 p cwd d ops n) x = m ->
      exists n' x', (n <= n')%nat /\ torrent_at sha1 p cwd d ops t n' = Some x' /\ at_rest x').
  { intros a Smaller m. induction m as [m IHm] using (well_founded_induction N.lt_wf_0). intros n x H EI EA EM.
    destruct (NS n x H) as [AR|(k & y & z & L & HY & HZ & CH)]; [exists n, x; auto|].
    destruct (run_down _ _ _ _ _ _ B i (k - n) n x OK BF H EI) as (y' & HY' & EY & LE).
    replace (n + (k - n))%nat with k in * by lia. rewrite HY in HY'. injection HY' as <-.
    destruct (step_down _ _ _ _ _ _ B i _ _ OK BF HY EY) as (z' & HZ' & EZ & LZ). cbn zeta in LZ. rewrite HZ in HZ'. injection HZ' as <-.
    assert (Next : exists n' x', (S k <= n')%nat /\ torrent_at sha1 p cwd d ops t n' = Some x' /\ at_rest x').
    { destruct (Nat.eq_dec (asks sha1 p cwd d ops t (S k)) a) as [E|N].
      - apply (IHm (todo B t (state_at sha1 p cwd d ops (S k)) z)) with (x := z); auto.
        destruct LZ as [LZ|[LA [LZ|[_ LZ]]]]; [lia|lia|contradiction].
      - apply (Smaller (asks sha1 p cwd d ops t (S k))) with (x := z); auto. lia. }
    destruct Next as (n' & x' & L' & X). exists n', x'. split; [lia|auto]. }
  assert (All : forall a n x, torrent_at sha1 p cwd d ops t n = Some x -> ta_info (sy_actor x) = Some i ->
      asks sha1 p cwd d ops t n = a -> exists n' x', (n <= n')%nat /\ torrent_at sha1 p cwd d ops t n' = Some x' /\ at_rest x').
  { intros a. induction a as [a IHa] using (well_founded_induction lt_wf). intros n x H EI EA.
    eapply (Go a); eauto. }
  intros a m n x H EI _ _. eapply All; eauto.
Qed.

(** ** What stays *)
Lemma requested_app : forall a b, requested (a ++ b) = requested a ++ requested b.
Proof. intros. unfold requested. apply flat_map_app. Qed.

Lemma to_writer_sent : forall es, to_writer (map Sent es) = readies_of es.
Proof. intros es. unfold to_writer, readies_of. induction es as [|e es IH]; [auto|]. cbn [map flat_map]. rewrite IH. destruct e; auto. Qed.

Lemma kept_step : forall sha1 p cwd x o, let x' := sys_step sha1 p cwd x o in
  (exists more, sy_trace x' = sy_trace x ++ more) /\ incl (written x) (written x').
Proof.
  intros sha1 p cwd x o. cbn zeta.
  destruct (step_trace sha1 p cwd x o) as [[E1 _]|(k & found & shuffle & m & a & es & _ & _ & _ & _ & E1 & _ & _ & E2 & _)].
  - split; [exists []; rewrite app_nil_r; auto|]. unfold written. rewrite E1.
    assert (L : (List.length (sy_writer (sys_step sha1 p cwd x o)) <= List.length (sy_writer x))%nat \/
      (exists k found shuffle m a es, o = OHandle k found shuffle /\ sy_dead x = false /\ nth_error (sy_mail x) k = Some m /\
        handle p found shuffle (sy_actor x) m = Ret (a, es))).
    { destruct o as [ep|k found shuffle| |k net pid fuel|]; cbn [sys_step].
      - left. cbn [sy_writer]. lia.
      - destruct (sy_dead x) eqn:D; [left; lia|]. destruct (nth_error (sy_mail x) k) as [m|] eqn:Hm; [|left; lia].
        destruct (handle p found shuffle (sy_actor x) m) as [[a es]| |] eqn:EH; [|left; cbn [sy_writer]; lia|left; lia].
        right. exists k, found, shuffle, m, a, es. repeat split; auto.
      - left. destruct (sy_queue x); [lia|]. destruct (List.length (sy_working x) <? sy_workers x)%nat; cbn [sy_writer]; lia.
      - left. destruct (nth_error (sy_working x) k) as [r|]; [|lia].
        destruct (download sha1 p fuel net pid (rq_endpoint r) (rq_info r) (rq_idx r)) as [[piece|e]| |]; cbn [sy_writer]; lia.
      - left. destruct (sy_writer_dead x); [lia|]. destruct (sy_writer x) as [|r rest] eqn:EW; [rewrite EW; lia|].
        destruct (write p cwd (sy_disk x) (rd_piece r) (rd_idx r) (rd_files r) (rd_piece_length r)); cbn [sy_writer List.length]; rewrite ?EW; cbn [List.length]; lia. }
    destruct L as [L|(k & found & shuffle & m & a & es & -> & D & Hm & EH)].
    + intros y Y. apply in_map_iff in Y as (r & <- & Y). apply in_map.
      set (j := (List.length (to_writer (sy_trace x)) - List.length (sy_writer x))%nat) in *.
      set (j' := (List.length (to_writer (sy_trace x)) - List.length (sy_writer (sys_step sha1 p cwd x o)))%nat).
      replace j with (Nat.min j j') in Y by lia. rewrite <- firstn_firstn in Y.
      rewrite <- (firstn_skipn j (firstn j' (to_writer (sy_trace x)))). apply in_or_app. auto.
    + exfalso. cbn [sys_step] in E1. rewrite D, Hm, EH in E1. cbn [sy_trace] in E1.
      apply (f_equal (@List.length event)) in E1. rewrite app_length in E1. cbn [List.length] in E1. lia.
  - split; [rewrite E1; eauto|]. unfold written. rewrite E1, E2.
    assert (ET : to_writer (sy_trace x ++ Handled m :: map Sent es) = to_writer (sy_trace x) ++ readies_of es).
    { rewrite <- (to_writer_sent es). unfold to_writer. rewrite flat_map_app. reflexivity. }
    rewrite ET, !app_length.
    replace (List.length (to_writer (sy_trace x)) + List.length (readies_of es) - (List.length (sy_writer x) + List.length (readies_of es)))%nat
      with (List.length (to_writer (sy_trace x)) - List.length (sy_writer x))%nat by lia.
    rewrite firstn_app, map_app. apply incl_appl, incl_refl.
Qed.

Lemma kept_process : forall sha1 p cwd d ops t n x, (forall n, pop_ok (ops n)) -> torrent_at sha1 p cwd d ops t n = Some x ->
  exists x', torrent_at sha1 p cwd d ops t (S n) = Some x' /\ (exists more, sy_trace x' = sy_trace x ++ more) /\ incl (written x) (written x') /\
    (forall i, ta_info (sy_actor x) = Some i -> ta_info (sy_actor x') = Some i).
Proof.
  intros sha1 p cwd d ops t n x OK H. destruct (torrent_forward sha1 p cwd _ (ops n) t x H) as (x' & H' & EI & _).
  exists x'. assert (T' : torrent_at sha1 p cwd d ops t (S n) = Some x') by (unfold torrent_at; rewrite state_S; exact H').
  split; [exact T'|]. rewrite <- and_assoc. split; [|exact EI].
  destruct (torrent_cases sha1 p cwd _ (ops n) t x' (OK n) H') as [[E NM]|[(x0 & D & o' & E & O' & -> & NM & _)|(raw & full & h & _ & _ & E & _)]].
  - unfold torrent_at in H. rewrite E in H. injection H as <-. split; [exists []; rewrite app_nil_r; auto|apply incl_refl].
  - unfold torrent_at in H. rewrite E in H. injection H as ->. apply (kept_step sha1 p cwd (set_disk D x) o').
  - exfalso. unfold torrent_at in H. subst t. assert (X : nth_error (pr_torrents (state_at sha1 p cwd d ops n)) (List.length (pr_torrents (state_at sha1 p cwd d ops n))) = None) by (apply nth_error_None; lia). congruence.
Qed.

Lemma kept_run : forall sha1 p cwd d ops t k n x, (forall n, pop_ok (ops n)) -> torrent_at sha1 p cwd d ops t n = Some x ->
  exists x', torrent_at sha1 p cwd d ops t (n + k) = Some x' /\ (exists more, sy_trace x' = sy_trace x ++ more) /\ incl (written x) (written x') /\
    (forall i, ta_info (sy_actor x) = Some i -> ta_info (sy_actor x') = Some i).
Proof.
  intros sha1 p cwd d ops t. induction k as [|k IH]; intros n x OK H.
  - rewrite Nat.add_0_r. exists x. repeat split; auto; [exists []; rewrite app_nil_r; auto|apply incl_refl].
  - destruct (IH n x OK H) as (y & HY & (m1 & E1) & I1 & F1). rewrite Nat.add_succ_r.
    destruct (kept_process _ _ _ _ _ _ _ _ OK HY) as (z & HZ & (m2 & E2) & I2 & F2). exists z.
    split; [auto|]. split; [exists (m1 ++ m2); rewrite E2, E1, app_assoc; auto|]. split; [eapply incl_tran; eauto|auto].
Qed.

(** Whoever has requested a piece knows the description. *)
Lemma requested_known : forall sha1 p cwd d ops s t x, started sha1 p cwd d ops s -> nth_error (pr_torrents s) t = Some x ->
  requested (sy_trace x) <> [] -> exists i, ta_info (sy_actor x) = Some i.
Proof.
  intros sha1 p cwd d ops s t x R H RQ. destruct (ta_info (sy_actor x)) as [i|] eqn:E; [eauto|]. exfalso.
  destruct (c58_alone _ _ _ _ _ _ R t x H) as (h & s0 & _ & R0 & (A1 & A2 & A3 & A4 & A5 & A6 & A7)).
  pose proof (inv_reached _ _ _ _ _ _ R0) as I. unfold inv in I. rewrite A1, E in I. rewrite A7 in I. tauto.
Qed.

(** ** C68 *)
Lemma c68_rest : forall sha1 p cwd d ops t B n x i, (forall n, pop_ok (ops n)) -> never_stuck sha1 p cwd d ops t ->
  (forall n x, torrent_at sha1 p cwd d ops t n = Some x -> (failed_so_far x <= B)%N) ->
  torrent_at sha1 p cwd d ops t n = Some x -> ta_info (sy_actor x) = Some i ->
  exists n' x', (n <= n')%nat /\ torrent_at sha1 p cwd d ops t n' = Some x' /\ at_rest x'.
Proof. intros sha1 p cwd d ops t B n x i OK NS BF H EI. exact (comes_to_rest _ _ _ _ _ _ B i OK BF NS _ _ n x H EI (le_n _) (N.le_refl _)). Qed.

Lemma c68 : forall sha1 p cwd F T d ops t B, (forall n, pop_ok (ops n)) ->
  (forall n, let s := state_at sha1 p cwd d ops n in
     apart (List.length (pr_torrents s)) F T /\ (forall u, (u < List.length (pr_torrents s))%nat -> disk_ready cwd (F u) d) /\ told sha1 F T s) ->
  never_stuck sha1 p cwd d ops t ->
  (forall n x, torrent_at sha1 p cwd d ops t n = Some x -> sy_workers x = 5%nat /\ (failed_so_far x <= B)%N) ->
  (exists n x, torrent_at sha1 p cwd d ops t n = Some x /\ requested (sy_trace x) <> []) ->
  exists n, forall m, (n <= m)%nat ->
    some_collision sha1 T (state_at sha1 p cwd d ops m) \/ complete_on cwd (F t) (T t) (pr_disk (state_at sha1 p cwd d ops m)).
Proof.
  intros sha1 p cwd F T d ops t B OK AP NS BW (n & x & H & RQ).
  destruct (requested_known _ _ _ _ _ _ _ _ (state_started sha1 p cwd d ops n OK) H RQ) as (i & EI).
  destruct (c68_rest sha1 p cwd d ops t B n x i OK NS) as (n' & x' & L & H' & AR); auto.
  { intros k y Y. apply (BW k y Y). }
  destruct (kept_run _ _ _ _ _ _ (n' - n) n x OK H) as (y & HY & (more & EM) & _ & EI'). specialize (EI' i EI).
  replace (n + (n' - n))%nat with n' in HY by lia. rewrite H' in HY. injection HY as <-.
  assert (RQ' : requested (sy_trace x') <> []). { rewrite EM, requested_app. intros X. apply app_eq_nil in X as [X _]. contradiction. }
  exists n'. intros m Lm. destruct (kept_run _ _ _ _ _ _ (m - n') n' x' OK H') as (z & HZ & _ & IN & EZ). specialize (EZ i EI').
  replace (n' + (m - n'))%nat with m in HZ by lia.
  destruct (AP m) as (AP1 & AP2 & AP3). cbn zeta in *.
  destruct (c58_disk _ _ _ _ _ _ _ _ (state_started sha1 p cwd d ops m OK) AP1 AP2 AP3) as [C|[G _]]; [auto|]. right.
  destruct (G t z HZ) as (_ & _ & _ & GI). destruct (GI i EZ) as [_ ALL]. intros k f Hk Lf. apply ALL; auto. clear ALL GI G.
  intros idx LI. apply IN. destruct (AP n') as (_ & _ & TD). cbn zeta in TD. pose proof (TD t x' i H' EI') as DE.
  destruct AR as (M & Q & K & WQ). destruct (BW n' x' H') as [W5 _].
  destruct (c58_alone _ _ _ _ _ _ (state_started sha1 p cwd d ops n' OK) t x' H') as (h & s0 & _ & R0 & (A1 & A2 & A3 & A4 & A5 & A6 & A7)).
  assert (FL : in_flight s0 = []) by (unfold in_flight; rewrite A3, A4, A5, M, Q, K; reflexivity).
  assert (WT : waiting s0 = []). { apply (proj2 (c40 _ _ _ _ _ _ R0)); [rewrite A7; auto|]. rewrite FL, A6, W5. cbn. lia. }
  unfold written. rewrite WQ. cbn [List.length]. rewrite Nat.sub_0_r, firstn_all.
  pose proof (c39 _ _ _ _ _ _ R0) as C. rewrite A1, EI' in C. destruct C as (nn & _ & PO & _).
  pose proof (c41_done _ _ _ _ _ _ _ _ R0 (eq_trans (f_equal ta_info A1) EI') PO (eq_trans A6 W5) WT FL) as PM.
  unfold completed in PM. rewrite A7 in PM.
  apply (Permutation_in idx (Permutation_sym PM)). apply in_numbers. rewrite (describes_count sha1 p i (F t) (T t) nn DE PO). auto.
Qed.

(** Reports: at most one per peer in an answer, from at most eighteen lookups. *)
Lemma reported_count : forall sha1 p cwd x o, let x' := sys_step sha1 p cwd x o in
  (List.length (reported x') <= List.length (reported x) + List.length (peer_reports [o]))%nat.
Proof.
  intros sha1 p cwd x o. cbn zeta. unfold reported. destruct o as [ep|k found shuffle| |k net pid fuel|]; cbn [sys_step].
  - cbn [sy_trace sy_mail]. rewrite app_assoc, found_app, app_length. cbn. lia.
  - destruct (sy_dead x); [lia|]. destruct (nth_error (sy_mail x) k) as [m|] eqn:Hm; [|lia].
    pose proof (Permutation_length (found_remove _ _ _ Hm)) as P. rewrite app_length in P.
    destruct (handle p found shuffle (sy_actor x) m) as [[a es]| |]; cbn [sy_trace sy_mail]; [| |lia].
    + rewrite handled_app, handled_sent, !found_app, !app_length. lia.
    + rewrite !found_app, !app_length. lia.
  - destruct (sy_queue x); [lia|]. destruct (List.length (sy_working x) <? sy_workers x)%nat; cbn [sy_trace sy_mail]; lia.
  - destruct (nth_error (sy_working x) k) as [r|]; [|lia].
    destruct (download sha1 p fuel net pid (rq_endpoint r) (rq_info r) (rq_idx r)) as [[piece|e]| |]; cbn [sy_trace sy_mail]; [| | |lia];
      rewrite ?app_nil_r, ?app_assoc, !found_app, !app_length; cbn; lia.
  - destruct (sy_writer_dead x); [lia|]. destruct (sy_writer x); [lia|].
    destruct (write _ _ _ _ _ _ _); cbn [sy_trace sy_mail]; lia.
Qed.

Lemma c68_reports : forall sha1 p cwd d ops s, started sha1 p cwd d ops s -> forall t x, nth_error (pr_torrents s) t = Some x ->
  (List.length (reported x) <= List.length (peers_for t (lookups sha1 p cwd (process_init d) ops)))%nat /\
  (List.length (filter (fun l => (ld_torrent l =? t)%nat) (lookups sha1 p cwd (process_init d) ops)) <= 18)%nat.
Proof.
  assert (Main : forall sha1 p cwd d ops s, started sha1 p cwd d ops s -> forall t,
    (List.length (pending t s) <= List.length (peers_for t (lookups sha1 p cwd (process_init d) ops)))%nat /\
    forall x, nth_error (pr_torrents s) t = Some x ->
    (List.length (pending t s) + List.length (reported x) <= List.length (peers_for t (lookups sha1 p cwd (process_init d) ops)))%nat).
  { intros sha1 p cwd d. apply (started_ind sha1 p cwd d (fun ops s => forall t,
      (List.length (pending t s) <= List.length (peers_for t (lookups sha1 p cwd (process_init d) ops)))%nat /\
      forall x, nth_error (pr_torrents s) t = Some x ->
      (List.length (pending t s) + List.length (reported x) <= List.length (peers_for t (lookups sha1 p cwd (process_init d) ops)))%nat)).
    - intros t. split; [apply Nat.le_0_l|]. intros x H. destruct t; discriminate.
    - intros ops s o R OK IH t. rewrite lookups_app, peers_for_app, app_length.
      assert (ES : lookups sha1 p cwd (pr_run sha1 p cwd (process_init d) ops) [o] = lookup_at s o).
      { cbn [lookups]. rewrite app_nil_r. destruct R as [_ ->]. reflexivity. }
      rewrite ES. pose proof (pending_count sha1 p cwd d ops s o t R) as PC. destruct (IH t) as [I1 I2]. split; [lia|].
      intros x' H'. destruct (torrent_cases sha1 p cwd _ o t x' OK H') as [[E NM]|[(x0 & D & o' & E & O' & -> & NM & _)|(raw & full & h & _ & _ & E & ->)]].
      + specialize (I2 x' E). lia.
      + specialize (I2 x0 E). pose proof (reported_count sha1 p cwd (set_disk D x0) o') as RC. cbn zeta in RC. rewrite NM, reported_set in RC. lia.
      + cbn [reported sys_init sy_trace sy_mail handled flat_map app found_peers List.length]. lia. }
  intros sha1 p cwd d ops s R t x H. split; [apply (Nat.le_trans _ (List.length (pending t s) + List.length (reported x))); [lia|apply (proj2 (Main _ _ _ _ _ _ R t) x H)]|].
  apply (asked_bound _ _ _ _ _ _ t R).
Qed.

(** ** Executions that begin with a given list *)
Definition followed_by (l : list pop) (tail : nat -> pop) (n : nat) : pop :=
  if (n <? List.length l)%nat then nth n l (PStart 0) else tail (n - List.length l)%nat.

Lemma followed_first : forall sha1 p cwd d l tail n, (n <= List.length l)%nat ->
  state_at sha1 p cwd d (followed_by l tail) n = pr_run sha1 p cwd (process_init d) (firstn n l).
Proof.
  intros sha1 p cwd d l tail. induction n as [|n IH]; intros L; [reflexivity|]. rewrite state_S, IH by lia.
  unfold followed_by. rewrite (proj2 (Nat.ltb_lt n _)) by lia.
  assert (E : firstn (S n) l = firstn n l ++ [nth n l (PStart 0)]).
  { clear IH. revert l L. induction n as [|n IHn]; intros [|o l] L; cbn [List.length] in L; try lia; [reflexivity|].
    cbn [firstn nth app]. f_equal. apply IHn. lia. }
  rewrite E, run_app. reflexivity.
Qed.

Lemma followed_later : forall sha1 p cwd d l tail k,
  state_at sha1 p cwd d (followed_by l tail) (S (List.length l + k))
  = pr_step sha1 p cwd (state_at sha1 p cwd d (followed_by l tail) (List.length l + k)) (tail k).
Proof.
  intros. rewrite state_S. unfold followed_by at 2. rewrite (proj2 (Nat.ltb_ge _ _)) by lia. f_equal. f_equal. lia.
Qed.

Lemma followed_ok : forall l tail, Forall pop_ok l -> (forall k, pop_ok (tail k)) -> forall n, pop_ok (followed_by l tail n).
Proof.
  intros l tail F H n. unfold followed_by. destruct (n <? List.length l)%nat eqn:E; [|auto].
  rewrite Forall_forall in F. apply F. apply nth_In. apply Nat.ltb_lt. auto.
Qed.

Definition not_add (o : pop) : bool := match o with PAdd _ _ => false | _ => true end.
Lemma followed_one : forall sha1 p cwd d o l tail n, Forall pop_ok (o :: l) -> (forall k, pop_ok (tail k)) ->
  forallb not_add l = true -> (forall k, not_add (tail k) = true) ->
  (List.length (pr_torrents (state_at sha1 p cwd d (followed_by (o :: l) tail) n)) <= 1)%nat.
Proof.
  intros sha1 p cwd d o l tail n F OK NL NT.
  rewrite (accepted_length _ _ _ _ _ _ (state_started sha1 p cwd d (followed_by (o :: l) tail) n (followed_ok _ _ F OK))).
  assert (N : forall k, not_add (followed_by (o :: l) tail (S k)) = true).
  { intros k. unfold followed_by. destruct (S k <? List.length (o :: l))%nat eqn:E; [|auto]. cbn [nth].
    rewrite forallb_forall in NL. apply NL, nth_In. apply Nat.ltb_lt in E. cbn [List.length] in E. lia. }
  destruct n as [|n]; [cbn; lia|]. cbn [seq map]. change (?a :: ?b) with ([a] ++ b) at 1. rewrite accepted_app, app_length.
  assert (Z : accepted p (map (followed_by (o :: l) tail) (seq 1 n)) = []).
  { generalize (le_n 1). generalize 1%nat at 2 3. induction n as [|n IH]; intros b B; [reflexivity|]. cbn [seq map accepted flat_map].
    fold (accepted p (map (followed_by (o :: l) tail) (seq (S b) n))). rewrite IH by lia.
    destruct b as [|b]; [lia|]. specialize (N b). destruct (followed_by (o :: l) tail (S b)); try discriminate; reflexivity. }
  rewrite Z. cbn [List.length]. rewrite Nat.add_0_r. unfold accepted. cbn [flat_map]. rewrite app_nil_r.
  destruct (followed_by (o :: l) tail 0); try (cbn; lia). destruct (accepts p raw); cbn; lia.
Qed.

(** The torrent 0 and the disk after a step of torrent 0. *)
Lemma step_torrent : forall sha1 p cwd s x o, nth_error (pr_torrents s) 0 = Some x ->
  nth_error (pr_torrents (torrent_step sha1 p cwd s 0 o)) 0 = Some (sys_step sha1 p cwd (set_disk (pr_disk s) x) o).
Proof. intros sha1 p cwd s x o H. rewrite torrent_nth, H. reflexivity. Qed.

(** Nothing to start: the torrent stays as it is. *)
Lemma idle_later : forall sha1 p cwd d l x, torrent_at sha1 p cwd d (followed_by l (fun _ => PStart 0)) 0 (List.length l) = Some x ->
  sy_queue x = [] ->
  forall k, exists D, torrent_at sha1 p cwd d (followed_by l (fun _ => PStart 0)) 0 (List.length l + k) = Some (set_disk D x) /\
    pr_disk (state_at sha1 p cwd d (followed_by l (fun _ => PStart 0)) (List.length l + k)) = pr_disk (state_at sha1 p cwd d (followed_by l (fun _ => PStart 0)) (List.length l)).
Proof.
  intros sha1 p cwd d l x H Q. induction k as [|k IH].
  - rewrite Nat.add_0_r. exists (sy_disk x). split; [|auto]. rewrite H. destruct x; reflexivity.
  - destruct IH as (D & E & ED). rewrite Nat.add_succ_r.
    exists (pr_disk (state_at sha1 p cwd d (followed_by l (fun _ => PStart 0)) (List.length l + k))). unfold torrent_at in *.
    rewrite followed_later. cbn [pr_step]. rewrite (step_torrent _ _ _ _ _ _ E), pr_disk_step by discriminate. split; [|auto].
    cbn [sys_step set_disk sy_queue]. rewrite Q. reflexivity.
Qed.

(** ** Asking forever *)
Fixpoint phase (k : nat) : nat := match k with O => 0 | S k => match phase k with 0 => 1 | 1 => 2 | _ => 0 end end%nat.
(** One download is started, cannot connect, and is asked for again. *)
Definition refusal (k : nat) : pop :=
  match phase k with
  | 0 => PStart 0
  | 1 => PFinish 0 0 None [] 0
  | _ => PHandle 0 0 0 0 None [] (fun _ l => l)
  end.
Definition asking_forever (i : info) (ph : nat) (x : sys) : Prop :=
  sy_writer x = [] /\ ta_pool (sy_actor x) = Some [] /\ ta_info (sy_actor x) = Some i /\ ta_peers (sy_actor x) <> [] /\
  sy_workers x = 5%nat /\ sy_dead x = false /\ requested (sy_trace x) <> [] /\
  (forall y, In y (ta_peers (sy_actor x)) -> ModelTracker.parse_socket_addr (ap_endpoint y) <> None) /\
  exists r r', ModelTracker.parse_socket_addr (rq_endpoint r) <> None /\ ModelTracker.parse_socket_addr (rq_endpoint r') <> None /\ match ph with
  | 0 => sy_queue x = [r; r'] /\ sy_working x = [] /\ sy_mail x = []
  | 1 => sy_queue x = [r'] /\ sy_working x = [r] /\ sy_mail x = []
  | _ => sy_queue x = [r'] /\ sy_working x = [] /\ sy_mail x = [PieceDownloadFailed (rq_endpoint r) (rq_idx r)]
  end.

Lemma asking_step : forall sha1 p cwd i k s x, nth_error (pr_torrents s) 0 = Some x -> asking_forever i (phase k) x ->
  exists x', nth_error (pr_torrents (pr_step sha1 p cwd s (refusal k))) 0 = Some x' /\ asking_forever i (phase (S k)) x' /\
    agenda x' <> agenda x /\ pr_disk (pr_step sha1 p cwd s (refusal k)) = pr_disk s.
Proof.
  intros sha1 p cwd i k s x H (W & P & EI & NP & W5 & D & RQ & AD & r & r' & Ar & Ar' & S). unfold refusal. cbn [phase].
  destruct (phase k) as [|[|ph]].
  - destruct S as (Q & K & M). exists (sys_step sha1 p cwd (set_disk (pr_disk s) x) OStart). cbn [pr_step]. rewrite pr_disk_step by discriminate.
    split; [apply step_torrent; auto|]. cbn [sys_step set_disk sy_queue sy_working sy_workers]. rewrite Q, K, W5. cbn [List.length Nat.ltb Nat.leb].
    split; [|split; [|auto]]; [|unfold agenda; cbn; rewrite K; discriminate].
    unfold asking_forever. cbn [sy_writer sy_actor sy_workers sy_dead sy_trace sy_queue sy_working sy_mail app]. repeat (split; [auto|]).
    exists r, r'. auto.
  - destruct S as (Q & K & M). exists (sys_step sha1 p cwd (set_disk (pr_disk s) x) (OFinish 0 None [] 0)). cbn [pr_step]. rewrite pr_disk_step by discriminate.
    split; [apply step_torrent; auto|]. cbn [sys_step set_disk sy_queue sy_working sy_workers sy_mail]. rewrite K. cbn [nth_error].
    assert (DL : exists e, download sha1 p 0 None [] (rq_endpoint r) (rq_info r) (rq_idx r) = Ret (Err e)).
    { unfold download, connect. destruct (ModelTracker.parse_socket_addr (rq_endpoint r)); [cbn; eauto|contradiction]. }
    destruct DL as (e & ->). split; [|split; [|auto]]; [|unfold agenda; cbn; rewrite K; discriminate].
    unfold asking_forever. cbn [sy_writer sy_actor sy_workers sy_dead sy_trace sy_queue sy_working sy_mail]. rewrite M. cbn [app remove_nth].
    repeat (split; [auto|]). exists r, r'. auto.
  - destruct S as (Q & K & M).
    assert (EP : pr_step sha1 p cwd s (PHandle 0 0 0 0 None [] (fun _ l => l)) = torrent_step sha1 p cwd s 0 (OHandle 0 (Ret None) (fun _ l => l))).
    { cbn [pr_step]. rewrite H, M, EI. reflexivity. }
    rewrite EP, pr_disk_step by discriminate.
    exists (sys_step sha1 p cwd (set_disk (pr_disk s) x) (OHandle 0 (Ret None) (fun _ l => l))). split; [apply step_torrent; auto|].
    destruct (suitable_nonempty (fun l => l) (update_failed (ta_peers (sy_actor x)) (rq_endpoint r)) (Permutation_refl _)) as (ep & FS & y & Iy & Ey).
    { unfold update_failed. intros X. apply map_eq_nil in X. auto. }
    cbn [sys_step set_disk sy_dead sy_mail sy_actor]. rewrite D, M. cbn [nth_error handle]. unfold handle_failed. rewrite P, FS, EI.
    cbn [unwrap obind pool_insert app pool_pop].
    split; [|split; [|auto]]; [|unfold agenda; cbn; rewrite M; discriminate].
    unfold asking_forever. cbn [set_disk sy_writer sy_actor sy_workers sy_dead sy_trace sy_queue sy_working sy_mail ta_pool ta_info ta_peers requests_of readies_of flat_map app remove_nth].
    rewrite Q, W. split; [auto|]. split; [auto|]. split; [auto|]. split; [unfold update_failed; intros X; apply map_eq_nil in X; auto|].
    split; [auto|]. split; [auto|]. split; [rewrite requested_app; intros X; apply app_eq_nil in X as [X _]; contradiction|].
    assert (AD' : forall y, In y (update_failed (ta_peers (sy_actor x)) (rq_endpoint r)) -> ModelTracker.parse_socket_addr (ap_endpoint y) <> None).
    { intros z Z. unfold update_failed in Z. apply in_map_iff in Z as (w & <- & Z). destruct (bytes_eqb (ap_endpoint w) (rq_endpoint r)); apply (AD w Z). }
    split; [exact AD'|].
    assert (Aep : ModelTracker.parse_socket_addr ep <> None) by (rewrite <- Ey; auto).
    exists r', {| rq_endpoint := ep; rq_info := i; rq_idx := rq_idx r |}. auto.
Qed.

Lemma asking_later : forall sha1 p cwd d l i x, torrent_at sha1 p cwd d (followed_by l refusal) 0 (List.length l) = Some x ->
  asking_forever i 0 x ->
  forall k, exists x', torrent_at sha1 p cwd d (followed_by l refusal) 0 (List.length l + k) = Some x' /\ asking_forever i (phase k) x' /\
    pr_disk (state_at sha1 p cwd d (followed_by l refusal) (List.length l + k)) = pr_disk (state_at sha1 p cwd d (followed_by l refusal) (List.length l)) /\
    exists x'', torrent_at sha1 p cwd d (followed_by l refusal) 0 (S (List.length l + k)) = Some x'' /\ agenda x'' <> agenda x'.
Proof.
  intros sha1 p cwd d l i x H A.
  assert (Main : forall k, exists x', torrent_at sha1 p cwd d (followed_by l refusal) 0 (List.length l + k) = Some x' /\ asking_forever i (phase k) x' /\
    pr_disk (state_at sha1 p cwd d (followed_by l refusal) (List.length l + k)) = pr_disk (state_at sha1 p cwd d (followed_by l refusal) (List.length l))).
  { induction k as [|k IH]; [rewrite Nat.add_0_r; exists x; auto|]. destruct IH as (y & HY & AY & DY).
    destruct (asking_step sha1 p cwd i k _ y HY AY) as (z & HZ & AZ & _ & DZ). exists z. rewrite Nat.add_succ_r. unfold torrent_at.
    rewrite followed_later. rewrite DZ. auto. }
  intros k. destruct (Main k) as (y & HY & AY & DY). exists y. repeat (split; [auto|]).
  destruct (asking_step sha1 p cwd i k _ y HY AY) as (z & HZ & _ & CH & _). exists z. split; [|auto]. unfold torrent_at. rewrite followed_later. auto.
Qed.
