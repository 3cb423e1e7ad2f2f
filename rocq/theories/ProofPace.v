(** ProofPace: proofs for PropPace *)
From Coq Require Import Permutation Lia.
From Verif Require Import Base Utf8 ModelBencode ModelMessages ModelTorrent ModelWriter ModelTracker ModelStream ModelPeer ModelLive
  ModelActors ModelCache ModelMain ProofBase SpecTorrent SpecWriter ProofWriter SpecPieces ProofPieces SpecPeer ProofPeer SpecSystem ProofSystem SpecMain ProofMain
  SpecWhole ProofWhole SpecForever ProofForever SpecSession ProofSession SpecSeeds ProofSeeds ProofDisk SpecPace.

(** ** Pieces only move on *)

Lemma nodup_apart : forall A (a b : list A) x, NoDup (a ++ b) -> In x a -> In x b -> False.
Proof.
  intros A a b x. induction a as [|y a IH]; intros ND I J; [destruct I|]. cbn in ND. inversion ND as [|? ? N ND']; subst.
  destruct I as [->|I]; [apply N; apply in_or_app; auto|auto].
Qed.

Lemma no_failed : forall x ep idx, failed_so_far x = 0%N -> ~ In (PieceDownloadFailed ep idx) (sy_mail x).
Proof.
  intros x ep idx F I. unfold failed_so_far in F. rewrite failed_app in F.
  assert (X : In (PieceDownloadFailed ep idx) (filter (fun m => match m with PieceDownloadFailed _ _ => true | _ => false end) (sy_mail x)))
    by (apply filter_In; auto).
  destruct (filter _ (sy_mail x)) in X, F; [destruct X|]. unfold lenN in F. cbn [List.length] in F. lia.
Qed.

Lemma moves_on : forall sha1 p cwd x o i q, op_ok o -> ta_info (sy_actor x) = Some i -> ta_pool (sy_actor x) = Some q -> failed_so_far x = 0%N ->
  let x' := sys_step sha1 p cwd x o in
  incl (waiting x') (waiting x) /\
  incl (map rq_idx (sy_queue x')) (map rq_idx (sy_queue x) ++ waiting x) /\
  incl (map rq_idx (sy_working x')) (map rq_idx (sy_working x) ++ map rq_idx (sy_queue x)).
Proof.
  intros sha1 p cwd x o i q OK EI EP F x'. subst x'.
  assert (S : forall A (l m : list A), incl l (l ++ m)) by (intros; apply incl_appl, incl_refl).
  destruct o as [ep|k found shuffle| |k net pid fuel|]; cbn [sys_step].
  - unfold waiting. cbn [sy_actor sy_queue sy_working]. auto using incl_refl.
  - destruct (sy_dead x); [auto using incl_refl|]. destruct (nth_error (sy_mail x) k) as [m|] eqn:Hm; [|auto using incl_refl].
    destruct (handle p found shuffle (sy_actor x) m) as [[a es]| |] eqn:EH; cbn [sy_actor sy_queue sy_working]; unfold waiting; cbn [sy_actor]; auto using incl_refl.
    destruct (handle_pool _ _ _ _ _ _ _ _ _ OK EH EI EP) as (q' & EQ & E). rewrite EQ, EP.
    assert (FM : failed_of m = []). { destruct m as [| |ep idx]; auto. exfalso. exact (no_failed x ep idx F (nth_error_In _ _ Hm)). }
    rewrite FM, app_nil_r in E. split; [|split; [|auto]].
    + intros y Y. rewrite <- E. apply in_or_app. auto.
    + rewrite map_app. intros y Y. apply in_app_iff in Y as [Y|Y]; apply in_or_app; [auto|]. right. rewrite <- E. apply in_or_app. auto.
  - destruct (sy_queue x) as [|r rest] eqn:EQ; [rewrite EQ; auto using incl_refl|].
    destruct (List.length (sy_working x) <? sy_workers x)%nat; [|rewrite EQ; auto using incl_refl]. unfold waiting. cbn [sy_actor sy_queue sy_working].
    split; [auto using incl_refl|]. split.
    + apply incl_appl. cbn [map]. apply incl_tl, incl_refl.
    + rewrite map_app. intros y Y. apply in_app_iff in Y as [Y|[<-|[]]]; apply in_or_app; [auto|]. right. left. auto.
  - destruct (nth_error (sy_working x) k) as [r|] eqn:Hr; [|auto using incl_refl].
    assert (R : incl (map rq_idx (remove_nth k (sy_working x))) (map rq_idx (sy_working x) ++ map rq_idx (sy_queue x))).
    { intros y Y. apply in_or_app. left. apply in_map_iff in Y as (z & <- & Y). apply in_map.
      apply (Permutation_in _ (Permutation_sym (remove_perm _ _ _ _ Hr))). right. auto. }
    destruct (download sha1 p fuel net pid (rq_endpoint r) (rq_info r) (rq_idx r)) as [[piece|e]| |]; unfold waiting; cbn [sy_actor sy_queue sy_working]; auto using incl_refl.
  - destruct (sy_writer_dead x); [auto using incl_refl|]. destruct (sy_writer x) as [|r rest]; [auto using incl_refl|].
    destruct (write p cwd (sy_disk x) (rd_piece r) (rd_idx r) (rd_files r) (rd_piece_length r)); unfold waiting; cbn [sy_actor sy_queue sy_working]; auto using incl_refl.
Qed.

Lemma time_mono : forall time, clock time -> forall n m, (n <= m)%nat -> (time n <= time m)%N.
Proof. intros time forwards n m L. induction L as [|m L IH]; [lia|]. pose proof (forwards m). lia. Qed.

Section Paced.
  Variable sha1 : bytes -> bytes.
  Variable p : profile.
  Variable cwd : loc.
  Variable d : fs.
  Variable ops : nat -> pop.
  Variable t : nat.
  Hypothesis ok : forall n, pop_ok (ops n).
  Notation at_ := (torrent_at sha1 p cwd d ops t).

  Lemma stays : forall n m x, at_ n = Some x -> (n <= m)%nat ->
    exists y, at_ m = Some y /\ (exists more, sy_trace y = sy_trace x ++ more) /\ incl (written x) (written y) /\
      (forall i, ta_info (sy_actor x) = Some i -> ta_info (sy_actor y) = Some i).
  Proof.
    intros n m x H L. destruct (kept_run sha1 p cwd d ops t (m - n) n x ok H) as (y & HY & G). replace (n + (m - n))%nat with m in HY by lia. eauto.
  Qed.

  Lemma completed_grows : forall x y more, sy_trace y = sy_trace x ++ more -> exists l, completed y = completed x ++ l.
  Proof.
    intros x y more E. unfold completed. rewrite E. unfold to_writer. rewrite flat_map_app, map_app. eauto.
  Qed.

  (** What is known of the torrent at any moment, if no worker was lost and no download has failed. *)
  Definition orderly (i : info) (count : N) (x : sys) : Prop :=
    ta_info (sy_actor x) = Some i /\ sy_workers x = 5%nat /\ failed_so_far x = 0%N /\
    (exists q, ta_pool (sy_actor x) = Some q) /\
    Permutation (waiting x ++ in_flight x ++ completed x) (numbers count) /\
    (List.length (in_flight x) <= 5)%nat /\
    (requested (sy_trace x) <> [] -> (List.length (in_flight x) < 5)%nat -> waiting x = []) /\
    (exists done, to_writer (sy_trace x) = done ++ sy_writer x).

  Hypothesis unhurt : forall n x, at_ n = Some x -> sy_workers x = 5%nat /\ failed_so_far x = 0%N.

  Lemma orderly_at : forall n x i count, at_ n = Some x -> ta_info (sy_actor x) = Some i -> pieces_of p i count -> orderly i count x.
  Proof.
    intros n x i count H EI PO. destruct (unhurt n x H) as [W5 F0].
    destruct (c58_alone _ _ _ _ _ _ (state_started sha1 p cwd d ops n ok) t x H) as (h & s0 & _ & R0 & (A1 & A2 & A3 & A4 & A5 & A6 & A7)).
    destruct (c40 _ _ _ _ _ _ R0) as [C1 C2]. pose proof (c39 _ _ _ _ _ _ R0) as C3. rewrite A1, EI in C3.
    destruct C3 as (n' & lost & PO' & LW & PM). assert (n' = count) by (eapply pieces_of_unique; eauto). subst n'.
    assert (lost = []) by (destruct lost; [auto|cbn in LW; lia]). subst lost. rewrite app_nil_r in PM.
    pose proof (inv_torrent _ _ _ _ _ _ _ _ _ (state_started sha1 p cwd d ops n ok) H EI (sy_disk x)) as I. unfold inv in I.
    change (sy_actor (set_disk (sy_disk x) x)) with (sy_actor x) in I. rewrite EI in I. destruct I as (_ & _ & _ & _ & q & _ & _ & _ & EP & _).
    assert (W0 : sy_workers s0 = 5%nat) by congruence. rewrite W0 in C1, C2.
    assert (Q1 : in_flight s0 = in_flight x) by (unfold in_flight; congruence). assert (Q2 : completed s0 = completed x) by (unfold completed; congruence).
    assert (Q3 : waiting s0 = waiting x) by (unfold waiting; now rewrite A1). rewrite Q1 in C1, C2, PM. rewrite Q2 in PM. rewrite Q3 in C2, PM. rewrite A7 in C2.
    unfold orderly. repeat apply conj; [exact EI|exact W5|exact F0|exists q; exact EP|exact PM|lia|exact C2|].
    eapply ProofDisk.writer_suffix; [|exact H]. apply state_started. exact ok.
  Qed.

  (** The same torrent, later. *)
  Lemma moves_later : forall i count n m x y, at_ n = Some x -> at_ m = Some y -> (n <= m)%nat -> ta_info (sy_actor x) = Some i -> pieces_of p i count ->
    incl (waiting y) (waiting x) /\
    incl (map rq_idx (sy_queue y) ++ waiting y) (map rq_idx (sy_queue x) ++ waiting x) /\
    incl (map rq_idx (sy_working y) ++ map rq_idx (sy_queue y) ++ waiting y) (map rq_idx (sy_working x) ++ map rq_idx (sy_queue x) ++ waiting x).
  Proof.
    intros i count n m x y H HY L EI PO. revert y HY. induction L as [|m L IH]; intros y' HY'.
    { rewrite H in HY'. injection HY' as <-. auto using incl_refl. }
    destruct (stays n m x H L) as (y & HY & _ & _ & EY). specialize (EY i EI). destruct (IH y HY) as (I1 & I2 & I3).
    destruct (orderly_at m y i count HY EY PO) as (_ & _ & F0 & (q & EP) & _).
    unfold torrent_at in HY'. rewrite state_S in HY'.
    destruct (finish_cases _ _ _ _ _ _ _ (ok m) HY') as [E|[(z & D & o' & E & O' & EX & _)|(h & ->)]].
    - unfold torrent_at in HY. rewrite HY in E. injection E as <-. auto.
    - unfold torrent_at in HY. rewrite HY in E. injection E as <-.
      destruct (moves_on sha1 p cwd (set_disk D y) o' i q O' EY EP F0) as (M1 & M2 & M3). rewrite <- EX in M1, M2, M3.
      change (waiting (set_disk D y)) with (waiting y) in *. cbn [set_disk sy_queue sy_working] in *.
      split; [eapply incl_tran; eauto|].
      assert (M2' : incl (map rq_idx (sy_queue y') ++ waiting y') (map rq_idx (sy_queue y) ++ waiting y)).
      { apply incl_app; [exact M2|]. eapply incl_tran; [exact M1|]. apply incl_appr, incl_refl. }
      split; [eapply incl_tran; eauto|]. eapply incl_tran; [|exact I3].
      apply incl_app; [|apply incl_appr; exact M2']. eapply incl_tran; [exact M3|]. rewrite app_assoc. apply incl_appl, incl_refl.
    - destruct (torrent_forward sha1 p cwd _ (ops m) t y HY) as (y2 & H2 & EY2 & _). rewrite HY' in H2. injection H2 as <-. specialize (EY2 i EY). discriminate EY2.
  Qed.

  Variable time : nat -> N.
  Variables start fetch note store : N.
  Hypothesis busy : prompt sha1 p cwd d ops t time start fetch note store.
  Variable i : info.
  Variable count : N.
  Hypothesis size : pieces_of p i count.

  (** A piece that was requested is handed to the writer in time. *)
  Lemma handed_over : forall n x idx, at_ n = Some x -> ta_info (sy_actor x) = Some i -> In idx (in_flight x) ->
    exists m y, (n <= m)%nat /\ (time m <= time n + (start + fetch + note))%N /\ at_ m = Some y /\ In idx (completed y).
  Proof.
    intros n x idx H EI I.
    assert (NW : ~ In idx (waiting x) /\ (idx < count)%N).
    { destruct (orderly_at n x i count H EI size) as (_ & _ & _ & _ & PM & _).
      pose proof (Permutation_NoDup (Permutation_sym PM) (numbers_nodup count)) as ND. split.
      - intros W. apply (nodup_apart _ _ _ idx ND W). apply in_or_app. auto.
      - apply in_numbers. apply (Permutation_in _ PM). apply in_or_app. right. apply in_or_app. auto. }
    destruct NW as [NW LT].
    assert (S1 : exists m1 y1, (n <= m1)%nat /\ (time m1 <= time n + start)%N /\ at_ m1 = Some y1 /\ ~ In idx (map rq_idx (sy_queue y1) ++ waiting y1)).
    { destruct (in_dec N.eq_dec idx (map rq_idx (sy_queue x))) as [IQ|NQ].
      - destruct (orderly_at n x i count H EI size) as (_ & W5 & _ & _ & _ & L5 & _).
        destruct (pt_start _ _ _ _ _ _ _ _ _ _ _ busy n x idx H IQ) as (m & y & L & TM & HY & NQ).
        { unfold in_flight in L5. rewrite !app_length, !map_length in L5. apply in_map_iff in IQ as (r & _ & IQ).
          destruct (sy_queue x); [destruct IQ|]. cbn [List.length] in L5. lia. }
        exists m, y. repeat split; auto. intros X. apply in_app_iff in X as [X|X]; [auto|].
        destruct (moves_later i count n m x y H HY L EI size) as (M & _). exact (NW (M _ X)).
      - exists n, x. split; [lia|]. split; [lia|]. split; [auto|]. intros X. apply in_app_iff in X as [X|X]; auto. }
    destruct S1 as (m1 & y1 & L1 & T1 & H1 & N1). destruct (stays n m1 x H L1) as (z & HZ & _ & _ & E1). rewrite H1 in HZ. injection HZ as <-. specialize (E1 i EI).
    assert (S2 : exists m2 y2, (m1 <= m2)%nat /\ (time m2 <= time m1 + fetch)%N /\ at_ m2 = Some y2 /\
      ~ In idx (map rq_idx (sy_working y2) ++ map rq_idx (sy_queue y2) ++ waiting y2)).
    { destruct (in_dec N.eq_dec idx (map rq_idx (sy_working y1))) as [IQ|NQ].
      - destruct (pt_fetch _ _ _ _ _ _ _ _ _ _ _ busy m1 y1 idx H1 IQ) as (m & y & L & TM & HY & NQ).
        exists m, y. repeat split; auto. intros X. apply in_app_iff in X as [X|X]; [auto|].
        destruct (moves_later i count m1 m y1 y H1 HY L E1 size) as (_ & M & _). exact (N1 (M _ X)).
      - exists m1, y1. split; [lia|]. split; [lia|]. split; [auto|]. intros X. apply in_app_iff in X as [X|X]; auto. }
    destruct S2 as (m2 & y2 & L2 & T2 & H2 & N2). destruct (stays m1 m2 y1 H1 L2) as (z & HZ & _ & _ & E2). rewrite H2 in HZ. injection HZ as <-. specialize (E2 i E1).
    assert (S3 : exists m3 y3, (m2 <= m3)%nat /\ (time m3 <= time m2 + note)%N /\ at_ m3 = Some y3 /\
      ~ In idx (map rq_idx (sy_working y3) ++ map rq_idx (sy_queue y3) ++ waiting y3) /\ ~ In idx (flat_map answer_for (sy_mail y3))).
    { destruct (in_dec N.eq_dec idx (flat_map answer_for (sy_mail y2))) as [IQ|NQ].
      - destruct (pt_note _ _ _ _ _ _ _ _ _ _ _ busy m2 y2 idx H2 IQ) as (m & y & L & TM & HY & NQ).
        exists m, y. repeat split; auto.
        destruct (moves_later i count m2 m y2 y H2 HY L E2 size) as (_ & _ & M). intros X. exact (N2 (M _ X)).
      - exists m2, y2. split; [lia|]. split; [lia|]. auto. }
    destruct S3 as (m3 & y3 & L3 & T3 & H3 & N3 & N4). destruct (stays m2 m3 y2 H2 L3) as (z & HZ & _ & _ & E3). rewrite H3 in HZ. injection HZ as <-. specialize (E3 i E2).
    exists m3, y3. split; [lia|]. split; [lia|]. split; [auto|].
    destruct (orderly_at m3 y3 i count H3 E3 size) as (_ & _ & _ & _ & PM & _).
    apply in_numbers in LT. apply (Permutation_in _ (Permutation_sym PM)) in LT. unfold in_flight in LT. rewrite !in_app_iff in LT. rewrite !in_app_iff in N3. tauto.
  Qed.

  (** All of some pieces. *)
  Lemma handed_all : forall l n x, at_ n = Some x -> ta_info (sy_actor x) = Some i -> incl l (in_flight x) ->
    exists m y, (n <= m)%nat /\ (time m <= time n + (start + fetch + note))%N /\ at_ m = Some y /\ incl l (completed y).
  Proof.
    induction l as [|idx l IH]; intros n x H EI I.
    { exists n, x. split; [lia|]. split; [lia|]. split; [auto|]. intros z []. }
    destruct (IH n x H EI) as (m & y & L & TM & HY & IC). { intros z Z. apply I. right. auto. }
    destruct (handed_over n x idx H EI) as (m' & y' & L' & TM' & HY' & IC'). { apply I. left. auto. }
    destruct (stays n (Nat.max m m') x H ltac:(lia)) as (z & HZ & _).
    destruct (stays m (Nat.max m m') y HY ltac:(lia)) as (z1 & HZ1 & (more & E1) & _). rewrite HZ in HZ1. injection HZ1 as <-.
    destruct (stays m' (Nat.max m m') y' HY' ltac:(lia)) as (z2 & HZ2 & (more' & E2) & _). rewrite HZ in HZ2. injection HZ2 as <-.
    destruct (completed_grows _ _ _ E1) as (l1 & C1). destruct (completed_grows _ _ _ E2) as (l2 & C2).
    exists (Nat.max m m'), z. split; [lia|]. split; [destruct (Nat.max_spec m m') as [[_ ->]|[_ ->]]; lia|]. split; [auto|].
    intros w [<-|W]; [rewrite C2; apply in_or_app; auto|]. rewrite C1. apply in_or_app. left. auto.
  Qed.

  (** Five more pieces in every round. *)
  Lemma rounds : forall k n x, at_ n = Some x -> ta_info (sy_actor x) = Some i -> requested (sy_trace x) <> [] ->
    exists m y, (n <= m)%nat /\ (time m <= time n + N.of_nat k * (start + fetch + note))%N /\ at_ m = Some y /\
      (Nat.min (N.to_nat count) (5 * k) <= List.length (completed y))%nat.
  Proof.
    induction k as [|k IH]; intros n x H EI RQ.
    { exists n, x. split; [lia|]. split; [lia|]. split; [auto|]. lia. }
    destruct (IH n x H EI RQ) as (m & y & L & TM & HY & C).
    destruct (stays n m x H L) as (z & HZ & (more & EM) & _ & EY). rewrite HY in HZ. injection HZ as <-. specialize (EY i EI).
    assert (RQ' : requested (sy_trace y) <> []). { rewrite EM, requested_app. intros X. apply app_eq_nil in X as [X _]. contradiction. }
    destruct (orderly_at m y i count HY EY size) as (_ & _ & _ & _ & PM & L5 & Q & _).
    destruct (handed_all (in_flight y) m y HY EY (incl_refl _)) as (m' & y' & L' & TM' & HY' & IC).
    destruct (stays m m' y HY L') as (z & HZ & (more' & EM') & _). rewrite HY' in HZ. injection HZ as <-.
    destruct (completed_grows _ _ _ EM') as (l1 & C1).
    exists m', y'. split; [lia|]. split; [nia|]. split; [auto|].
    pose proof (Permutation_NoDup (Permutation_sym PM) (numbers_nodup count)) as ND.
    apply NoDup_app_r in ND.
    assert (LE : (List.length (in_flight y ++ completed y) <= List.length (completed y'))%nat).
    { apply NoDup_incl_length; [auto|]. apply incl_app; [auto|]. rewrite C1. apply incl_appl, incl_refl. }
    rewrite app_length in LE. pose proof (Permutation_length PM) as LP. rewrite !app_length in LP. unfold numbers in LP. rewrite map_length, seq_length in LP.
    destruct (Nat.eq_dec (List.length (in_flight y)) 5) as [E5|N5]; [lia|]. rewrite (Q RQ' ltac:(lia)) in LP. cbn [List.length] in LP. lia.
  Qed.

  (** The writer: one more piece in every round, when all are there. *)
  Lemma stored : forall k n x, at_ n = Some x -> ta_info (sy_actor x) = Some i -> List.length (completed x) = N.to_nat count ->
    exists m y, (n <= m)%nat /\ (time m <= time n + N.of_nat k * store)%N /\ at_ m = Some y /\
      (Nat.min (N.to_nat count) k <= List.length (written y))%nat.
  Proof.
    induction k as [|k IH]; intros n x H EI C.
    { exists n, x. split; [lia|]. split; [lia|]. split; [auto|]. lia. }
    destruct (IH n x H EI C) as (m & y & L & TM & HY & W).
    destruct (stays n m x H L) as (z & HZ & (more & EM) & _ & EY). rewrite HY in HZ. injection HZ as <-. specialize (EY i EI).
    destruct (completed_grows _ _ _ EM) as (l1 & C1).
    destruct (orderly_at m y i count HY EY size) as (_ & _ & _ & _ & PM & _ & _ & (done & ED)).
    assert (CY : completed y = written y ++ map rd_idx (sy_writer y)). { unfold completed. rewrite (written_prefix _ _ ED), ED, map_app. reflexivity. }
    destruct (sy_writer y) as [|r rest] eqn:EW.
    { exists m, y. split; [auto|]. split; [lia|]. split; [auto|]. cbn [map] in CY. rewrite app_nil_r in CY. rewrite <- CY, C1, app_length. lia. }
    destruct (pt_store _ _ _ _ _ _ _ _ _ _ _ busy m y r rest HY EW) as (m' & y' & L' & TM' & HY' & NI).
    destruct (stays m m' y HY L') as (z & HZ & (more' & EM') & IW & EY'). rewrite HY' in HZ. injection HZ as <-. specialize (EY' i EY).
    destruct (completed_grows _ _ _ EM') as (l2 & C2).
    destruct (orderly_at m' y' i count HY' EY' size) as (_ & _ & _ & _ & _ & _ & _ & (done' & ED')).
    assert (CY' : completed y' = written y' ++ map rd_idx (sy_writer y')). { unfold completed. rewrite (written_prefix _ _ ED'), ED', map_app. reflexivity. }
    exists m', y'. split; [lia|]. split; [nia|]. split; [auto|].
    pose proof (Permutation_NoDup (Permutation_sym PM) (numbers_nodup count)) as ND. apply NoDup_app_r, NoDup_app_r in ND. rewrite CY in ND. cbn [map] in ND.
    assert (LE : (List.length (rd_idx r :: written y) <= List.length (written y'))%nat); [|cbn [List.length] in LE; lia].
    apply NoDup_incl_length.
    { apply NoDup_remove in ND as [ND NI']. constructor; [|exact (NoDup_app_l _ _ _ ND)]. intros X. apply NI'. apply in_or_app. auto. }
    intros w [<-|X]; [|auto]. assert (Y : In (rd_idx r) (completed y')).
    { rewrite C2, CY. apply in_or_app. left. apply in_or_app. right. left. auto. }
    rewrite CY' in Y. apply in_app_iff in Y as [Y|Y]; [auto|contradiction].
  Qed.

  Lemma all_written : forall n x, at_ n = Some x -> ta_info (sy_actor x) = Some i -> requested (sy_trace x) <> [] ->
    exists m y, (n <= m)%nat /\ (time m <= time n + piece_count count 5 * (start + fetch + note) + count * store)%N /\ at_ m = Some y /\
      forall idx, (idx < count)%N -> In idx (written y).
  Proof.
    intros n x H EI RQ. destruct (rounds (N.to_nat (piece_count count 5)) n x H EI RQ) as (m & y & L & TM & HY & C).
    destruct (stays n m x H L) as (z & HZ & _ & _ & EY). rewrite HY in HZ. injection HZ as <-. specialize (EY i EI).
    destruct (orderly_at m y i count HY EY size) as (_ & _ & _ & _ & PM & _). pose proof (Permutation_length PM) as LP. rewrite !app_length in LP.
    unfold numbers in LP. rewrite map_length, seq_length in LP.
    assert (B : (count <= 5 * piece_count count 5)%N) by (unfold piece_count; lia).
    destruct (stored (N.to_nat count) m y HY EY ltac:(lia)) as (m' & y' & L' & TM' & HY' & W).
    destruct (stays m m' y HY L') as (z & HZ & _ & _ & EY'). rewrite HY' in HZ. injection HZ as <-. specialize (EY' i EY).
    exists m', y'. split; [lia|]. split; [lia|]. split; [auto|].
    destruct (orderly_at m' y' i count HY' EY' size) as (_ & _ & _ & _ & PM' & _ & _ & (done' & ED')).
    assert (CY' : completed y' = written y' ++ map rd_idx (sy_writer y')). { unfold completed. rewrite (written_prefix _ _ ED'), ED', map_app. reflexivity. }
    pose proof (Permutation_NoDup (Permutation_sym PM') (numbers_nodup count)) as ND. apply NoDup_app_r, NoDup_app_r in ND. rewrite CY' in ND.
    apply NoDup_app_l in ND.
    intros idx LI. apply in_numbers in LI. refine (NoDup_length_incl ND _ _ _ LI).
    - unfold numbers. rewrite map_length, seq_length. lia.
    - intros w Wi. apply (Permutation_in _ PM'). rewrite CY'. apply in_or_app. right. apply in_or_app. right. apply in_or_app. auto.
  Qed.
End Paced.

Lemma c85_in_time : forall sha1 p cwd F T d ops t time start fetch note store, (forall n, pop_ok (ops n)) ->
  (forall n, let s := state_at sha1 p cwd d ops n in
     apart (List.length (pr_torrents s)) F T /\ (forall u, (u < List.length (pr_torrents s))%nat -> disk_ready cwd (F u) d) /\ told sha1 F T s) ->
  (forall n x, torrent_at sha1 p cwd d ops t n = Some x -> sy_workers x = 5%nat /\ failed_so_far x = 0%N) ->
  clock time -> prompt sha1 p cwd d ops t time start fetch note store ->
  forall n x i, torrent_at sha1 p cwd d ops t n = Some x -> requested (sy_trace x) <> [] -> ta_info (sy_actor x) = Some i ->
  let count := piece_count (lenN (T t)) (i_piece_length i) in
  forall m, (time n + piece_count count 5 * (start + fetch + note) + count * store < time m)%N ->
    some_collision sha1 T (state_at sha1 p cwd d ops m) \/ complete_on cwd (F t) (T t) (pr_disk (state_at sha1 p cwd d ops m)).
Proof.
  intros sha1 p cwd F T d ops t time start fetch note store OK AP UH CL PT n x i H RQ EI count m LM.
  destruct (AP n) as (_ & _ & TD). cbn zeta in TD. pose proof (TD t x i H EI) as DE. pose proof DE as (_ & _ & _ & PP & _).
  assert (PO : pieces_of p i count) by (exists (lenN (T t)); split; [exact (describes_total _ p _ _ _ DE)|]; split; [auto|reflexivity]).
  destruct (all_written sha1 p cwd d ops t OK UH time start fetch note store PT i count PO n x H EI RQ) as (m' & y & L & TM & HY & AW).
  destruct (stays sha1 p cwd d ops t OK n m' x H L) as (z & HZ & _ & _ & EY). rewrite HY in HZ. injection HZ as <-. specialize (EY i EI).
  assert (Lm : (m' <= m)%nat).
  { destruct (Nat.le_gt_cases m' m) as [|G]; [auto|]. pose proof (time_mono time CL m m' ltac:(lia)). lia. }
  destruct (stays sha1 p cwd d ops t OK m' m y HY Lm) as (z & HZ & _ & IN & EZ). specialize (EZ i EY).
  destruct (AP m) as (AP1 & AP2 & AP3). cbn zeta in *.
  destruct (c58_disk _ _ _ _ _ _ _ _ (state_started sha1 p cwd d ops m OK) AP1 AP2 AP3) as [C|[G _]]; [auto|]. right.
  destruct (G t z HZ) as (_ & _ & _ & GI). destruct (GI i EZ) as [_ ALL]. intros k f Hk Lf. apply ALL; auto.
Qed.

(** With servers that answer, nothing else is needed. *)
Lemma c85_served : forall sha1 p cwd F T d ops t time start fetch note store, (forall b, List.length (sha1 b) = 20%nat) -> (forall n, pop_ok (ops n)) ->
  (forall n, let s := state_at sha1 p cwd d ops n in
     apart (List.length (pr_torrents s)) F T /\ (forall u, (u < List.length (pr_torrents s))%nat -> disk_ready cwd (F u) d) /\ told sha1 F T s) ->
  (forall u n x i, torrent_at sha1 p cwd d ops u n = Some x -> ta_info (sy_actor x) = Some i -> well_shaped i (T u)) ->
  (forall u n, served sha1 p 11 (T u) u (state_at sha1 p cwd d ops n) (ops n)) ->
  clock time -> prompt sha1 p cwd d ops t time start fetch note store ->
  forall n x i, torrent_at sha1 p cwd d ops t n = Some x -> requested (sy_trace x) <> [] -> ta_info (sy_actor x) = Some i ->
  let count := piece_count (lenN (T t)) (i_piece_length i) in
  forall m, (time n + piece_count count 5 * (start + fetch + note) + count * store < time m)%N ->
    complete_on cwd (F t) (T t) (pr_disk (state_at sha1 p cwd d ops m)).
Proof.
  intros sha1 p cwd F T d ops t time start fetch note store HL OK AP WS SV CL PT n x i H RQ EI count m LM.
  assert (SP : forall u n x, torrent_at sha1 p cwd d ops u n = Some x -> spotless (T u) x).
  { intros u. apply (c83_spotless sha1 p cwd d ops u (F u) (T u) HL OK); [|apply SV].
    intros k y j Hy Ej. split; [|eapply WS; eauto]. destruct (AP k) as (_ & _ & TD). exact (TD u y j Hy Ej). }
  destruct (c85_in_time sha1 p cwd F T d ops t time start fetch note store OK AP) with (n := n) (x := x) (i := i) (m := m) as [(u & y & j & Hy & Ej & C)|G]; auto.
  - intros k y Hy. destruct (SP t k y Hy) as (W5 & F0 & _). auto.
  - exfalso. destruct (SP u m y Hy) as (_ & _ & TR). exact (truthful_no_collision _ _ _ _ (TR j Ej) C).
Qed.

(** ** Not faster than five at a time *)

Definition success_of (m : tmsg) : list N := match m with PieceDownloadSuccessfull _ _ idx => [idx] | _ => [] end.

Lemma success_remove : forall k l m, nth_error l k = Some m ->
  (List.length (flat_map success_of l) = List.length (success_of m) + List.length (flat_map success_of (remove_nth k l)))%nat.
Proof.
  induction k as [|k IH]; intros [|y l] m H; cbn [nth_error remove_nth flat_map] in *; try discriminate; rewrite ?app_length.
  - injection H as ->. lia.
  - rewrite (IH l m H). lia.
Qed.

Lemma handle_ready_count : forall p found shuffle a m a' es, handle p found shuffle a m = Ret (a', es) ->
  (List.length (readies_of es) <= List.length (success_of m))%nat.
Proof.
  intros p found shuffle a m a' es H. destruct m as [ep|ep piece idx|ep idx]; cbn [handle success_of List.length] in *.
  - unfold handle_peer_found in H. destruct (ta_info a) as [i|].
    + destruct (_ && _).
      * apply obind_ret in H as (q & _ & H). apply obind_ret in H as ([[q' ini] es'] & E & H). injection H as <- <-.
        enough (G : forall r k q ini q' ini' es, initial_requests r k shuffle i (ta_peers a ++ [apeer_new ep]) q ini = Ret (q', ini', es) -> readies_of es = []) by (now rewrite (G _ _ _ _ _ _ _ E)).
        clear. induction r as [|r IH]; intros k q ini q' ini' es E; cbn [initial_requests] in E; [injection E as <- <- <-; reflexivity|].
        apply obind_ret in E as (e & _ & E). destruct (pool_pop q) as [[n|] q1]; [|eapply IH; exact E].
        apply obind_ret in E as ([[q2 ini2] es2] & E & E2). injection E2 as <- <- <-. apply IH in E. cbn. exact E.
      * injection H as <- <-. cbn. lia.
    + apply obind_ret in H as ([i|] & _ & H); [|injection H as <- <-; cbn; lia].
      apply obind_ret in H as (tot & _ & H). apply obind_ret in H as (c & _ & H). injection H as <- <-. cbn. lia.
  - unfold handle_success in H. apply obind_ret in H as (i & _ & H). apply obind_ret in H as (fs & _ & H). apply obind_ret in H as (q & _ & H).
    destruct (pool_pop q) as [[n|] q1]; injection H as <- <-; cbn; lia.
  - unfold handle_failed in H. apply obind_ret in H as (q & _ & H). apply obind_ret in H as (e & _ & H).
    destruct (pool_pop (pool_insert q idx)) as [[n|] q1]; [apply obind_ret in H as (i & _ & H)|]; injection H as <- <-; cbn; lia.
Qed.

(** In one step at most one piece is received; then one download less is running. *)
Lemma received_step : forall sha1 p cwd x o, let x' := sys_step sha1 p cwd x o in
  (List.length (received x') <= List.length (received x))%nat \/
  (List.length (received x') = S (List.length (received x)) /\ S (List.length (sy_working x')) = List.length (sy_working x))%nat.
Proof.
  intros sha1 p cwd x o. cbn zeta. unfold received, completed. fold success_of.
  destruct o as [ep|k found shuffle| |k net pid fuel|]; cbn [sys_step].
  - left. cbn [sy_mail sy_trace]. rewrite flat_map_app. cbn. rewrite app_nil_r. lia.
  - left. destruct (sy_dead x); [lia|]. destruct (nth_error (sy_mail x) k) as [m|] eqn:Hm; [|lia].
    pose proof (success_remove _ _ _ Hm) as S.
    destruct (handle p found shuffle (sy_actor x) m) as [[a es]| |] eqn:EH; cbn [sy_mail sy_trace]; [| |lia].
    + apply handle_ready_count in EH. rewrite trace_app_writer, !app_length, !map_length, app_length. lia.
    + rewrite !app_length. lia.
  - left. destruct (sy_queue x); [lia|]. destruct (List.length (sy_working x) <? sy_workers x)%nat; cbn [sy_mail sy_trace]; lia.
  - destruct (nth_error (sy_working x) k) as [r|] eqn:Hr; [|left; lia].
    pose proof (Permutation_length (remove_perm _ _ _ _ Hr)) as L. cbn [List.length] in L.
    destruct (download sha1 p fuel net pid (rq_endpoint r) (rq_info r) (rq_idx r)) as [[piece|e]| |]; cbn [sy_mail sy_trace sy_working]; rewrite ?flat_map_app; cbn [flat_map success_of].
    + right. rewrite !app_length. cbn. lia.
    + left. rewrite !app_nil_r. lia.
    + left. rewrite !app_nil_r. lia.
    + left. lia.
  - left. destruct (sy_writer_dead x); [lia|]. destruct (sy_writer x); [lia|].
    destruct (write _ _ _ _ _ _ _); cbn [sy_mail sy_trace]; lia.
Qed.

Section Limit.
  Variable sha1 : bytes -> bytes.
  Variable p : profile.
  Variable cwd : loc.
  Variable d : fs.
  Variable ops : nat -> pop.
  Variable t : nat.
  Variable time : nat -> N.
  Hypothesis ok : forall n, pop_ok (ops n).
  Notation at_ := (torrent_at sha1 p cwd d ops t).

  Lemma received_nodup : forall n x, at_ n = Some x -> NoDup (received x) /\ (List.length (sy_working x) <= 5)%nat.
  Proof.
    intros n x H.
    destruct (c58_alone _ _ _ _ _ _ (state_started sha1 p cwd d ops n ok) t x H) as (h & s0 & _ & R0 & (A1 & A2 & A3 & A4 & A5 & A6 & A7)).
    assert (Q : received s0 = received x) by (unfold received, completed; congruence). rewrite <- Q, <- A5.
    destruct (c40 _ _ _ _ _ _ R0) as [[C1 C2] _]. split; [|unfold in_flight in C1; rewrite !app_length, !map_length in C1; lia].
    pose proof (c39 _ _ _ _ _ _ R0) as C3. unfold received. fold success_of.
    assert (SUB : forall l, NoDup (flat_map answer_for l ++ completed s0) -> NoDup (flat_map success_of l ++ completed s0)).
    { induction l as [|m l IH]; [auto|]. destruct m as [ep|ep piece idx|ep idx]; cbn [flat_map answer_for success_of app]; auto; intros ND; inversion ND as [|? ? NI ND']; subst; auto.
      constructor; [|auto]. intros X. apply NI. apply in_app_iff in X as [X|X]; apply in_or_app; [left|auto].
      apply in_flat_map in X as (m & I & X). apply in_flat_map. exists m. split; [auto|]. destruct m; auto. destruct X. }
    apply SUB. destruct (ta_info (sy_actor s0)) as [i|].
    - destruct C3 as (n' & lost & _ & _ & PM). pose proof (Permutation_NoDup (Permutation_sym PM) (numbers_nodup n')) as ND.
      apply NoDup_app_r in ND. rewrite app_assoc in ND. apply NoDup_app_l in ND. unfold in_flight in ND. rewrite <- !app_assoc in ND.
      apply NoDup_app_r, NoDup_app_r in ND. exact ND.
    - destruct C3 as (_ & E & EC). rewrite EC. unfold in_flight in E. apply app_eq_nil in E as [_ E]. apply app_eq_nil in E as [_ E]. rewrite E. constructor.
  Qed.

  (** The first moment at which more than [c] pieces have been received. *)
  Lemma first_more : forall c n x, at_ n = Some x -> (List.length (received x) <= c)%nat -> forall m y, (n <= m)%nat -> at_ m = Some y ->
    (c < List.length (received y))%nat ->
    exists m' z, (n <= m' <= m)%nat /\ at_ m' = Some z /\ List.length (received z) = S c /\ (List.length (sy_working z) <= 4)%nat.
  Proof.
    intros c n x H C m y L. revert y. induction L as [|m L IH]; intros y HY CY; [rewrite H in HY; injection HY as <-; lia|].
    destruct (stays sha1 p cwd d ops t ok n m x H L) as (w & HW & _).
    destruct (Nat.lt_ge_cases c (List.length (received w))) as [G|G].
    { destruct (IH w HW G) as (m' & z & LL & R). exists m', z. split; [lia|auto]. }
    exists (S m), y. split; [lia|]. split; [auto|].
    pose proof HY as HY'. unfold torrent_at in HY'. rewrite state_S in HY'. destruct (received_nodup m w HW) as [_ W5].
    destruct (finish_cases _ _ _ _ _ _ _ (ok m) HY') as [E|[(z & D & o' & E & O' & EX & _)|(h & ->)]].
    - unfold torrent_at in HW. rewrite HW in E. injection E as <-. lia.
    - unfold torrent_at in HW. rewrite HW in E. injection E as <-. pose proof (received_step sha1 p cwd (set_disk D w) o') as S. cbn zeta in S. rewrite <- EX in S.
      change (received (set_disk D w)) with (received w) in S. change (sy_working (set_disk D w)) with (sy_working w) in S. lia.
    - cbn in CY. lia.
  Qed.

  Lemma new_one : forall (l m : list N), NoDup l -> (List.length m < List.length l)%nat -> exists x, In x l /\ ~ In x m.
  Proof.
    intros l m ND L. destruct (Forall_Exists_dec (fun x => In x m) (fun x => in_dec N.eq_dec x m) l) as [F|E].
    - exfalso. rewrite Forall_forall in F. pose proof (NoDup_incl_length ND F). lia.
    - apply Exists_exists in E as (x & I & N). eauto.
  Qed.

  Lemma five_at_a_time : forall least, no_sooner sha1 p cwd d ops t time least ->
    forall n x, at_ n = Some x -> sy_working x = [] -> received x = [] ->
    forall k m y, (n <= m)%nat -> at_ m = Some y -> (5 * k < List.length (received y))%nat -> (time n + N.of_nat (S k) * least <= time m)%N.
  Proof.
    intros least NS n x H W R. induction k as [|k IH]; intros m y L HY C.
    - destruct (received y) as [|idx l] eqn:E; [cbn in C; lia|].
      pose proof (NS n m x y idx L H HY) as G. rewrite W, R, E in G. specialize (G (fun X => X) (fun X => X) (or_introl eq_refl)). lia.
    - destruct (first_more (5 * k)%nat n x H) with (m := m) (y := y) as (m' & z & LL & HZ & CZ & WZ); auto; [rewrite R; cbn; lia|lia|].
      specialize (IH m' z ltac:(lia) HZ ltac:(lia)). destruct (received_nodup m y HY) as [ND _].
      destruct (new_one (received y) (map rq_idx (sy_working z) ++ received z) ND) as (idx & I & NI); [rewrite app_length, map_length; lia|].
      pose proof (NS m' m z y idx ltac:(lia) HZ HY) as G.
      assert (time m' + least <= time m)%N; [|lia]. apply G; auto; intros X; apply NI; apply in_or_app; auto.
  Qed.

  Lemma c85_at_least : forall least, no_sooner sha1 p cwd d ops t time least -> clock time ->
    forall n x, at_ n = Some x -> sy_working x = [] -> received x = [] ->
    forall m y, (n <= m)%nat -> at_ m = Some y -> (time n + piece_count (lenN (completed y)) 5 * least <= time m)%N.
  Proof.
    intros least NS CL n x H W R m y L HY. destruct (N.eq_dec (lenN (completed y)) 0) as [E|E].
    - rewrite E. change (piece_count 0 5) with 0%N. pose proof (time_mono time CL n m L). lia.
    - pose proof (five_at_a_time least NS n x H W R (N.to_nat ((lenN (completed y) - 1) / 5)) m y L HY) as G.
      assert (LR : (lenN (completed y) <= lenN (received y))%N) by (unfold received, lenN; rewrite app_length; lia).
      unfold lenN in *. specialize (G ltac:(lia)). unfold piece_count. replace ((N.of_nat (List.length (completed y)) + 5 - 1) / 5)%N with (N.of_nat (S (N.to_nat ((N.of_nat (List.length (completed y)) - 1) / 5)))) by lia.
      exact G.
  Qed.
End Limit.
