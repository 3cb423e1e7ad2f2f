(** ProofTime: sessions in time (for C72) *)
From Verif Require Import Base ModelBencode ModelMessages ModelTorrent ModelTracker ModelStream ModelPeer ModelClock
  SpecBencode SpecMessages SpecWriter SpecPieces SpecStream SpecPeer SpecSession SpecWrites SpecVerdict SpecClock
  ProofBase ProofMessages ProofPieces ProofStream ProofPeer ProofSession ProofOutput ProofWrites ProofVerdict ProofHear ProofTold ProofExactly ProofClock.

(** ** Attempts *)
Lemma listen_length : forall k c, List.length (fst (listen k c)) = k.
Proof.
  induction k as [|k IH]; intros c; [reflexivity|]. cbn [listen]. destruct (read_stream_c c) as [r c1]. specialize (IH c1).
  destruct (listen k c1) as [rs c2]. cbn [fst List.length] in *. lia.
Qed.
Lemma attempts_length : forall k c, List.length (attempts k c) = k.
Proof. intros. unfold attempts. rewrite map_length. apply listen_length. Qed.
Lemma listen_app : forall k j c, listen (k + j) c =
  (fst (listen k c) ++ fst (listen j (snd (listen k c))), snd (listen j (snd (listen k c)))).
Proof.
  induction k as [|k IH]; intros j c; [cbn; destruct (listen j c); reflexivity|]. cbn [listen Nat.add].
  destruct (read_stream_c c) as [r c1]. rewrite IH. destruct (listen k c1) as [rs c2]. cbn [fst snd].
  destruct (listen j c2) as [rs' c3]. reflexivity.
Qed.
Lemma attempts_app : forall k j c, attempts (k + j) c = attempts k c ++ attempts j (snd (listen k c)).
Proof. intros. unfold attempts. rewrite listen_app. cbn [fst]. apply map_app. Qed.
Lemma listen_lasts : forall k, lasts (8000 * N.of_nat k) (listen k).
Proof.
  induction k as [|k IH]; intros c; [cbn; lia|]. cbn [listen]. pose proof (stream_lasts c) as T. destruct (read_stream_c c) as [r c1].
  specialize (IH c1). destruct (listen k c1) as [rs c2]. cbn [fst snd] in *. lia.
Qed.

Lemma socket_log : forall n c, ck_log c = [] -> read_messages n (socket_of n c) = (fst (listen n c), with_sched (ck_stream (snd (listen n c))) []).
Proof.
  intros n c L. destruct (listen_refines n c) as (ks & E & _ & R). rewrite L in E. cbn [app] in E.
  unfold socket_of. rewrite E, <- (app_nil_r ks). apply R.
Qed.
Lemma attempts_delivered : forall n c, ck_log c = [] -> delivers (socket_of n c) (attempts n c).
Proof.
  intros n c L. unfold delivers. rewrite attempts_length, socket_log by auto. reflexivity.
Qed.
Lemma delivers_attempts : forall n c a, ck_log c = [] -> delivers (socket_of n c) a -> (List.length a <= n)%nat -> a = attempts (List.length a) c.
Proof.
  intros n c a L D Ln. pose proof (attempts_delivered n c L) as D'.
  destruct (delivers_both _ _ _ D D') as (b & E); [now rewrite attempts_length|].
  replace n with (List.length a + (n - List.length a))%nat in E by lia. rewrite attempts_app in E.
  pose proof (attempts_length (List.length a) c) as LA.
  assert (G : forall (x y u v : list heard), x ++ u = y ++ v -> List.length x = List.length y -> x = y).
  { induction x as [|p x IH]; intros [|q y] u v; cbn; intros H HL; try discriminate; auto. injection H as <- H. f_equal. eapply IH; eauto. }
  symmetry. eapply G; [exact E|exact LA].
Qed.
Lemma delivered_le : forall ks cl, (List.length (delivered cl ks) <= List.length (ticks_bytes ks))%nat.
Proof.
  induction ks as [|[d| |] ks IH]; intros cl; cbn [delivered]; [cbn; lia| | |];
  unfold ticks_bytes in *; cbn [flat_map app]; [|apply IH|apply IH].
  rewrite !app_length. specialize (IH cl). destruct cl; cbn [List.length]; lia.
Qed.
Lemma socket_incoming : forall n c, ck_log c = [] ->
  (List.length (incoming (socket_of n c)) <= List.length (st_avail (ck_stream c)) + List.length (sent_bytes (ck_events c)))%nat.
Proof.
  intros n c L. destruct (listen_refines n c) as (ks & E & B & _). rewrite L in E. cbn [app] in E.
  unfold incoming, socket_of, with_sched. cbn [st_avail st_closed st_sched]. rewrite app_length, E.
  pose proof (delivered_le ks (st_closed (ck_stream c))). rewrite <- B, app_length. lia.
Qed.

(** ** How many attempts a session takes *)
Lemma silent_dec : forall o, legible o -> silent o \/ ~ silent o.
Proof.
  intros [[id body]|] LG; [|left; intros r m H; discriminate].
  destruct (LG id body eq_refl) as [NU NE]. destruct (c17 body 0 id) as (CP & CH & _).
  destruct (new_raw body 0 id) as [m| |] eqn:NR; [|elim NU; now apply CP|elim NE; now apply CH].
  destruct m as [m|[]].
  - right. intros S. apply (S (id, body) m eq_refl). exists 0%N. exact NR.
  - left. intros r m' [= <-] [len' P]. cbn [fst snd] in P. apply (parsed_length _ _ _ 0) in P. rewrite P in NR. discriminate.
Qed.
Lemma idle_exists : forall b, Forall legible b -> (forall b', starts_before b' b -> ~ fell_silent b') ->
  exists i, idle_is b i /\ (i <= 11)%N /\ (List.length b <= N.to_nat i + 10 * messages b)%nat.
Proof.
  induction b as [|o b IH] using rev_ind; intros LG NF.
  - exists 0%N. split; [apply idle_nil|split; [lia|cbn; lia]].
  - apply Forall_app in LG as [LG LO]. apply Forall_inv in LO.
    destruct IH as (i & I & Li & Lb); [auto| |].
    { intros b' S. apply NF. destruct S as (q & Nq & ->). exists (q ++ [o]). split; [now destruct q|now rewrite app_assoc]. }
    assert (i <> 11)%N. { intros ->. apply (NF b); [exists [o]; split; [discriminate|auto]|]. now apply fell_idle. }
    unfold messages in *. rewrite somes_app, !app_length. cbn [List.length].
    destruct (silent_dec o LO) as [S|S].
    + exists (i + 1)%N. split; [now apply idle_silent|]. split; [lia|]. lia.
    + exists 1%N. split; [now apply idle_heard|]. split; [lia|].
      destruct o as [r|]; [cbn; lia|]. elim S. intros r m H'. discriminate.
Qed.
Section Length.
  Variable ih : bytes.
  Variable cut : Prop.
  Variable got : list heard -> list bytes -> Prop.
  Variable needed : N -> N.
  Variable can_ask : list heard -> Prop.
  Let ends := ends ih cut got needed can_ask.
  Let pending := pending ih cut got needed can_ask.

  Lemma ends_length : forall c en, ends c en -> Forall legible c -> (List.length c <= 22 + 10 * messages c)%nat.
  Proof.
    intros c en E LG.
    assert (G : forall h a n b, opened ih cut h a n -> (forall b', starts_before b' b -> going got needed can_ask n (h :: a) b') ->
      Forall legible (h :: a ++ b) -> (List.length (h :: a ++ b) <= 22 + 10 * messages (h :: a ++ b))%nat).
    { intros h a n b (_ & _ & _ & La & _) GO LG'. inversion LG' as [|? ? _ LG2]; subst. apply Forall_app in LG2 as [_ LB].
      destruct (idle_exists b LB) as (i & _ & Li & L); [intros b' S; apply (GO b' S)|].
      unfold messages in *. change (h :: a ++ b) with ([h] ++ a ++ b). rewrite !somes_app, !app_length. cbn [List.length]. lia. }
    unfold ends in E. inversion E; subst; try (eapply G; eauto; fail); cbn [List.length]; try lia.
  Qed.

  Lemma willing_none : forall c, willing (c ++ [None]) -> willing c.
  Proof.
    intros c (U & n & e & A & NZ). split; [now apply unchoked_none|]. exists n, e. split; [|auto].
    apply announced_snoc in A as [(r & m & H & _)|[A _]]; [discriminate|auto].
  Qed.
  Lemma idle_nones : forall q b i, Forall (eq None) q -> idle_is b i -> idle_is (b ++ q) (i + N.of_nat (List.length q)).
  Proof.
    induction q as [|o q IH]; intros b i F I; [rewrite app_nil_r, N.add_0_r; exact I|]. inversion F as [|? ? <- F']; subst.
    change (b ++ None :: q) with (b ++ [None] ++ q). rewrite app_assoc. cbn [List.length].
    replace (i + N.of_nat (S (List.length q)))%N with ((i + 1) + N.of_nat (List.length q))%N by lia.
    apply IH; [auto|]. apply idle_silent; [intros r m H; discriminate|auto].
  Qed.
  Lemma pending_not_quiet : forall c q, Forall legible c -> Forall (eq None) q -> List.length q = 11%nat -> ~ pending (c ++ q).
  Proof.
    intros c q LG Q LQ P. unfold pending in P. inversion P as [E|h a G NC L NW E|h a n b O GO E].
    - destruct c; [|discriminate]. cbn [app] in E. subst q. discriminate.
    - destruct c as [|x c]; cbn [app] in E.
      + subst q. inversion Q as [|? ? <- _]; subst. destruct G as (y & Y & _). discriminate Y.
      + injection E as -> ->. rewrite app_length in L. unfold heard in *. lia.
    - assert (LQ2 : Forall legible q).
      { eapply Forall_impl; [|exact Q]. intros o <- id body H. discriminate H. }
      destruct O as (Gr & NC & Na & La & U & A & NZ & NW).
      destruct c as [|x c]; cbn [app] in E.
      { subst q. inversion Q as [|? ? <- _]; subst. destruct Gr as (y & Y & _). discriminate Y. }
      injection E as -> E. pose proof E as E0. apply app_split in E as [(w & Nw & ->)|(y & -> & ->)].
      + rewrite <- app_assoc in E0. apply app_inv_head in E0. destruct (exists_last Nw) as (w' & o & ->).
        rewrite <- E0 in Q. apply Forall_app in Q as [Q _]. apply Forall_app in Q as [_ Q]. inversion Q as [|? ? <- _]; subst.
        apply (NW (c ++ w')); [exists [None]; split; [discriminate|now rewrite app_assoc]|].
        apply willing_none. rewrite <- app_comm_cons, <- app_assoc. split; [exact U|]. destruct A as (e & A). exists n, e. auto.
      + inversion LG as [|? ? _ LG']; subst. apply Forall_app in LG' as [_ LY].
        destruct (idle_exists y LY) as (i & I & Li & _).
        { intros b' S. apply (GO b'). apply starts_before_starts in S as (z & ->). rewrite <- app_assoc. apply starts_app. }
        pose proof (firstn_skipn (11 - N.to_nat i) q) as FS.
        assert (F1 : Forall (eq None) (firstn (11 - N.to_nat i) q)).
        { rewrite <- FS in Q. now apply Forall_app in Q as [Q _]. }
        pose proof (idle_nones _ _ _ F1 I) as I2. rewrite firstn_length_le in I2 by (unfold heard in *; lia).
        replace (i + N.of_nat (11 - N.to_nat i))%N with 11%N in I2 by lia. apply fell_idle in I2.
        destruct (GO (y ++ firstn (11 - N.to_nat i) q)) as (_ & _ & _ & NF); [|exact (NF I2)].
        exists (skipn (11 - N.to_nat i) q). rewrite <- app_assoc. f_equal. symmetry. exact FS.
  Qed.
End Length.
