(** ProofNear: what is read from a peer that is near and keeps talking (for C73) *)
From Verif Require Import Base ModelBencode ModelMessages ModelStream ModelPeer ModelClock
  SpecBencode SpecMessages SpecStream SpecPeer SpecSession SpecVerdict SpecClock SpecNear
  ProofBase ProofMessages ProofStream ProofPeer ProofSession ProofOutput ProofVerdict ProofHear ProofClock ProofTime ProofQuiet.

Definition msgs (l : stamped) : list raw := map snd l.

Lemma steady_ge : forall g t l, steady g t l -> Forall (fun e => t <= fst e)%N l.
Proof.
  intros g t l S. induction S as [|t t' m l L S IH]; [constructor|]. constructor; [cbn; lia|]. eapply Forall_impl; [|exact IH]. cbn. intros. lia.
Qed.
Lemma steady_from : forall g t now l, steady g t l -> (t <= now)%N -> later now (arriving l) -> steady g now l.
Proof.
  intros g t now l S L LT. destruct S as [|t t' m l L' S]; constructor; [|exact S]. apply Forall_inv in LT. cbn [fst] in LT. lia.
Qed.
Lemma later_arriving : forall now l, Forall (fun e => now < fst e)%N l -> later now (arriving l).
Proof. intros now l F. unfold later, arriving. apply Forall_map. exact F. Qed.
Lemma burst_arriving : forall g t l, steady g t l -> exists a b, l = map (pair t) a ++ b /\ later t (arriving b) /\ steady g t b /\
  burst t (arriving l) = (wire a, arriving b).
Proof.
  intros g t l. induction l as [|[t' m] l IH]; intros S.
  - exists [], []. split; [reflexivity|split; [constructor|split; [constructor|reflexivity]]].
  - inversion S as [|? ? ? ? L S']; subst. cbn [arriving map burst fst snd]. destruct (N.leb_spec t' t) as [Lt|Lt].
    + assert (t' = t) as -> by lia. destruct (IH S') as (a & b & -> & LB & SB & B). exists (m :: a), b.
      fold (arriving (map (pair t) a ++ b)). rewrite B. split; [reflexivity|split; [exact LB|split; [exact SB|reflexivity]]].
    + exists [], ((t', m) :: l). split; [reflexivity|]. split; [|split; [exact S|reflexivity]].
      apply later_arriving. constructor; [exact Lt|]. apply steady_ge in S'. eapply Forall_impl; [|exact S']. cbn. intros. lia.
Qed.
Lemma frame_nonempty : forall m rest, frame (fst m) (snd m) ++ rest <> [].
Proof. intros m rest. discriminate. Qed.
Lemma wire_nonempty : forall m ms, wire (m :: ms) <> [].
Proof. intros m ms. apply frame_nonempty. Qed.

(** Something arrives after [now], within the timeout. *)
Lemma wait_next : forall c now t m l, holds c now [] (arriving ((t, m) :: l)) -> (now < t <= now + 100)%N -> steady 1000 t l ->
  exists a b, l = map (pair t) a ++ b /\ later t (arriving b) /\ steady 1000 t b /\
    fst (wait c) = TData (wire (m :: a)) /\ holds (snd (wait c)) t [] (arriving b) /\ ck_stream (snd (wait c)) = ck_stream c.
Proof.
  intros c now t m l (T & E & A & C) Lt S. destruct (burst_arriving _ _ _ S) as (a & b & -> & LB & SB & B).
  exists a, b. split; [reflexivity|split; [exact LB|split; [exact SB|]]].
  unfold wait. cbn zeta. rewrite T, E, A, C. change READ_TIMEOUT with 100%N. cbn [arriving map fst snd].
  rewrite (proj2 (N.leb_gt t now)) by lia. cbn [orb]. rewrite (proj2 (N.leb_le t (now + 100))) by lia.
  unfold due. cbn [burst]. rewrite N.leb_refl. fold (arriving (map (pair t) a ++ b)). rewrite B. cbn [fst snd ck_stream].
  split; [reflexivity|]. split; [|reflexivity]. unfold holds. cbn. auto.
Qed.
Lemma peek_next : forall n c now t m l, holds c now [] (arriving ((t, m) :: l)) -> (now < t <= now + 100)%N -> steady 1000 t l ->
  exists a b, l = map (pair t) a ++ b /\ later t (arriving b) /\ steady 1000 t b /\
    fst (peek_c n c) = Some (takeN n (wire (m :: a))) /\ holds (snd (peek_c n c)) t (wire (m :: a)) (arriving b).
Proof.
  intros n c now t m l H Lt S. destruct (wait_next c now t m l H Lt S) as (a & b & El & LB & SB & K & (T & E & A & C) & St).
  exists a, b. split; [exact El|split; [exact LB|split; [exact SB|]]].
  unfold peek_c. destruct (wait c) as [k c1]. cbn [fst snd] in *. subst k. unfold peek, env_step, with_sched. cbn [st_sched st_avail st_closed].
  rewrite A, C. cbn [app st_avail st_closed]. pose proof (wire_nonempty m a) as W. destruct (wire (m :: a)) as [|x d]; [easy|]. cbn [fst snd]. split; [reflexivity|].
  unfold holds. cbn. auto.
Qed.
Lemma read0_next : forall c now t m l, holds c now [] (arriving ((t, m) :: l)) -> (now < t <= now + 100)%N -> steady 1000 t l ->
  exists a b, l = map (pair t) a ++ b /\ later t (arriving b) /\ steady 1000 t b /\
    fst (read_c 0 c) = Some [] /\ holds (snd (read_c 0 c)) t (wire (m :: a)) (arriving b).
Proof.
  intros c now t m l H Lt S. destruct (wait_next c now t m l H Lt S) as (a & b & El & LB & SB & K & (T & E & A & C) & St).
  exists a, b. split; [exact El|split; [exact LB|split; [exact SB|]]].
  unfold read_c. destruct (wait c) as [k c1]. cbn [fst snd] in *. subst k. unfold read, env_step, with_sched. cbn [st_sched st_avail st_closed].
  rewrite A, C. cbn [app st_avail st_closed]. pose proof (wire_nonempty m a) as W. destruct (wire (m :: a)) as [|x d]; [easy|]. cbn [fst snd].
  split; [reflexivity|]. unfold holds. cbn. auto.
Qed.
(** Nothing arrives within the timeout. *)
Lemma nothing : forall c now l, holds c now [] (arriving l) -> Forall (fun e => now + 100 < fst e)%N l ->
  (forall n, fst (peek_c n c) = None /\ holds (snd (peek_c n c)) (now + 100) [] (arriving l)) /\
  (forall n, fst (read_c n c) = None /\ holds (snd (read_c n c)) (now + 100) [] (arriving l)).
Proof.
  intros c now l (T & E & A & C) F.
  assert (Q : quiet_for 100 c).
  { split; [exact A|split; [exact C|]]. rewrite E, T. now apply later_arriving. }
  split; intros n; [unfold peek_c|unfold read_c]; rewrite (wait_quiet c 100 Q) by lia; unfold peek, read, env_step, with_sched;
    cbn [ck_stream st_sched st_avail st_closed]; rewrite A, C; cbn [app st_avail st_closed fst snd]; (split; [reflexivity|]);
    unfold holds; cbn; rewrite T, E; auto.
Qed.

Lemma listen_events : forall j c ms, quiet_for ms c -> (100 * N.of_nat j <= ms)%N -> ck_events (snd (listen j c)) = ck_events c.
Proof.
  induction j as [|j IH]; intros c ms Q L; [reflexivity|]. cbn [listen]. destruct (attempt_quiet c ms Q) as (R & T & Q1); [lia|].
  assert (E : ck_events (snd (read_stream_c c)) = ck_events c).
  { unfold read_stream_c, has_messages_c, peek_c. rewrite (wait_quiet c ms Q) by lia. destruct Q as (A & C & E).
    unfold peek, env_step, with_sched. cbn [ck_stream st_sched st_avail st_closed]. rewrite A, C. reflexivity. }
  destruct (read_stream_c c) as [r c1]. cbn [fst snd] in *. pose proof (IH c1 (ms - 100)%N Q1 ltac:(lia)) as I.
  destruct (listen j c1). cbn [snd] in *. congruence.
Qed.

(** What is waiting, and what is to come. *)
Definition at_ (c : clocked) (now : N) (S : stamped) : Prop :=
  exists ms rem, S = map (pair now) ms ++ rem /\ holds c now (wire ms) (arriving rem) /\ later now (arriving rem) /\ steady 1000 now rem.
Definition sound (m : raw) : Prop := (fst m < 256)%N /\ small (snd m).

Lemma at_nothing : forall c now now' rem, holds c now' [] (arriving rem) -> (now <= now')%N -> later now' (arriving rem) -> steady 1000 now rem ->
  at_ c now' rem.
Proof.
  intros c now now' rem H L LT S. exists [], rem. split; [reflexivity|split; [exact H|split; [exact LT|]]]. eapply steady_from; eauto.
Qed.
(** The frame of a message with an empty body, with nothing behind it. *)
Lemma frame_alone : forall c now id rem, holds c now (frame id []) (arriving rem) -> later now (arriving rem) -> steady 1000 now rem -> (id < 256)%N ->
  exists len now', fst (read_frame_c c) = Some ([], id, len) /\ (now <= now' <= now + 200)%N /\ at_ (snd (read_frame_c c)) now' rem.
Proof.
  intros c now id rem H L S Lid. unfold read_frame_c.
  destruct (read_holds 4 c now _ _ H) as (P & H1); [discriminate|auto|]. destruct (read_c 4 c) as [rd c1]. cbn [fst snd] in *. subst rd.
  change (takeN 4 (frame id [])) with [0; 0; 0; 1]%N. change (dropN 4 (frame id [])) with [id] in H1.
  destruct (read_holds 1 c1 now _ _ H1) as (P & H2); [discriminate|auto|]. destruct (read_c 1 c1) as [rd c2]. cbn [fst snd] in *. subst rd.
  change (takeN 1 [id]) with [id]. change (dropN 1 [id]) with (@nil N) in H2.
  change (from_be (overlay [0; 0; 0; 0]%N [0; 0; 0; 1]%N)) with 1%N. change (hd 0%N (overlay [0%N] [id])) with id. change (1 =? 0)%N with false. cbn iota.
  change (1 - 1)%N with 0%N. cbn [read_body_c]. unfold peek_and_read_c.
  assert (NX : rem = [] \/ exists t m l, rem = (t, m) :: l) by (destruct rem as [|[t m] l]; [auto|right; eauto]).
  assert (CASE : (exists t m l, rem = (t, m) :: l /\ (now < t <= now + 100)%N) \/ Forall (fun e => now + 100 < fst e)%N rem).
  { destruct rem as [|[t m] l]; [right; constructor|]. apply Forall_inv in L as Lt. cbn [fst] in Lt.
    destruct (N.le_gt_cases t (now + 100)) as [K|K]; [left; exists t, m, l; split; [reflexivity|lia]|right].
    inversion S as [|? ? ? ? _ S']; subst. constructor; [cbn; lia|]. apply steady_ge in S'. eapply Forall_impl; [|exact S']. cbn. intros. lia. }
  destruct CASE as [(t & m & l & -> & Lt)|FA].
  - inversion S as [|? ? ? ? _ S']; subst. destruct (peek_next 0 c2 now t m l H2 Lt S') as (a & b & -> & LB & SB & P & H3).
    destruct (peek_c 0 c2) as [pk c3]. cbn [fst snd] in *. subst pk.
    assert (Z : takeN 0 (wire (m :: a)) = []) by reflexivity. rewrite Z. change (lenN [] =? 0)%N with true. cbn iota.
    destruct (read_holds 0 c3 t _ _ H3 (wire_nonempty m a) LB) as (P & H4). destruct (read_c 0 c3) as [rd c4]. cbn [fst snd] in *. subst rd. rewrite Z.
    change (lenN [] =? 0)%N with true. cbn iota. cbn [fst snd]. exists 0%N, t. split; [reflexivity|]. split; [lia|].
    exists (m :: a), b. split; [reflexivity|]. split; [exact H4|split; [exact LB|exact SB]].
  - destruct (proj1 (nothing c2 now rem H2 FA) 0%N) as (P & H3). destruct (peek_c 0 c2) as [pk c3]. cbn [fst snd] in *. subst pk.
    change (0 =? 0)%N with true. cbn iota.
    assert (CASE : (exists t m l, rem = (t, m) :: l /\ (now + 100 < t <= now + 100 + 100)%N) \/ Forall (fun e => now + 100 + 100 < fst e)%N rem).
    { destruct rem as [|[t m] l]; [right; constructor|]. apply Forall_inv in FA as Lt. cbn [fst] in Lt.
      destruct (N.le_gt_cases t (now + 100 + 100)) as [K|K]; [left; exists t, m, l; split; [reflexivity|lia]|right].
      inversion S as [|? ? ? ? _ S']; subst. constructor; [cbn; lia|]. apply steady_ge in S'. eapply Forall_impl; [|exact S']. cbn. intros. lia. }
    destruct CASE as [(t & m & l & -> & Lt)|FA2].
    + inversion S as [|? ? ? ? _ S']; subst. destruct (read0_next c3 (now + 100) t m l H3 Lt S') as (a & b & -> & LB & SB & P & H4).
      destruct (read_c 0 c3) as [rd c4]. cbn [fst snd] in *. subst rd. change (lenN [] =? 0)%N with true. cbn iota. cbn [fst snd].
      exists 0%N, t. split; [reflexivity|]. split; [lia|]. exists (m :: a), b. split; [reflexivity|]. split; [exact H4|split; [exact LB|exact SB]].
    + destruct (proj2 (nothing c3 (now + 100) rem H3 FA2) 0%N) as (P & H4). destruct (read_c 0 c3) as [rd c4]. cbn [fst snd] in *. subst rd.
      change (lenN [] =? 0)%N with true. cbn iota. cbn [fst snd]. exists 0%N, (now + 100 + 100)%N. split; [reflexivity|]. split; [lia|].
      apply (at_nothing c4 now); [exact H4|lia|now apply later_arriving|exact S].
Qed.
Lemma rest_alone : forall c now id rem, holds c now (frame id []) (arriving rem) -> later now (arriving rem) -> steady 1000 now rem -> (id < 256)%N ->
  exists len now', fst (attempt_rest c) = Some ([], id, len) /\ (now <= now' <= now + 200)%N /\ at_ (snd (attempt_rest c)) now' rem.
Proof.
  intros c now id rem H L S Lid. unfold attempt_rest.
  destruct (peek_holds 68 c now _ _ H) as (P & H1); [discriminate|auto|]. destruct (peek_c 68 c) as [pk c1]. cbn [fst snd] in *. subst pk.
  change (lenN (takeN 68 (frame id [])) =? 68)%N with false. cbn [andb]. now apply frame_alone.
Qed.
(** The rest of an attempt when messages are waiting. *)
Lemma rest_at : forall c now m ms rem, holds c now (wire (m :: ms)) (arriving rem) -> later now (arriving rem) -> steady 1000 now rem -> sound m ->
  exists len now', fst (attempt_rest c) = Some (snd m, fst m, len) /\ (now <= now' <= now + 200)%N /\
    at_ (snd (attempt_rest c)) now' (map (pair now) ms ++ rem).
Proof.
  intros c now [id body] ms rem H L S [Lid Lb]. cbn [fst snd] in *.
  assert (D : (body = [] /\ ms = []) \/ body ++ wire ms <> []).
  { destruct body; [|right; discriminate]. destruct ms as [|m ms]; [left; auto|right; apply wire_nonempty]. }
  destruct D as [[-> ->]|D].
  - apply rest_alone; auto.
  - destruct (rest_frame c now id body (wire ms) (arriving rem) H L Lid Lb D) as (len & R & H1). exists len, now. split; [exact R|]. split; [lia|].
    exists ms, rem. split; [reflexivity|]. split; [exact H1|]. split; [exact L|exact S].
Qed.
Lemma step_waiting : forall c now m ms rem, holds c now (wire (m :: ms)) (arriving rem) -> later now (arriving rem) -> steady 1000 now rem -> sound m ->
  exists len now', fst (read_stream_c c) = Some (snd m, fst m, len) /\ (now <= now' <= now + 200)%N /\
    at_ (snd (read_stream_c c)) now' (map (pair now) ms ++ rem).
Proof.
  intros c now m ms rem H L S Sm. unfold read_stream_c, has_messages_c.
  destruct (peek_holds 1 c now _ _ H (wire_nonempty m ms) L) as (P & H1). destruct (peek_c 1 c) as [pk c1]. cbn [fst snd] in *. subst pk.
  destruct (takeN_1 _ (wire_nonempty m ms)) as (x & y & ->). cbn [negb]. exact (rest_at c1 now m ms rem H1 L S Sm).
Qed.
Lemma step_arriving : forall c now t m l, holds c now [] (arriving ((t, m) :: l)) -> (now < t <= now + 100)%N -> steady 1000 t l -> sound m ->
  exists len now', fst (read_stream_c c) = Some (snd m, fst m, len) /\ (t <= now' <= t + 200)%N /\ at_ (snd (read_stream_c c)) now' l.
Proof.
  intros c now t m l H Lt S Sm. unfold read_stream_c, has_messages_c.
  destruct (peek_next 1 c now t m l H Lt S) as (a & b & -> & LB & SB & P & H1). destruct (peek_c 1 c) as [pk c1]. cbn [fst snd] in *. subst pk.
  destruct (takeN_1 _ (wire_nonempty m a)) as (x & y & ->). cbn [negb]. exact (rest_at c1 t m a b H1 LB SB Sm).
Qed.
(** The next message, after at most nine attempts in vain. *)
Lemma step_at : forall c now t m S, at_ c now ((t, m) :: S) -> sound m ->
  exists g now', attempts (g + 1) c = repeat None g ++ [Some m] /\ (g <= 9)%nat /\ (now + 100 * N.of_nat g <= t)%N /\ (t <= now' <= t + 200)%N /\
    at_ (snd (listen (g + 1) c)) now' S.
Proof.
  intros c now t m S (ms & rem & E & H & L & SD) Sm.
  assert (ONE : forall c r c1, read_stream_c c = (r, c1) -> attempts 1 c = [brings r] /\ snd (listen 1 c) = c1).
  { clear. intros c r c1 E. unfold attempts. cbn [listen]. rewrite E. cbn. auto. }
  destruct ms as [|m' ms].
  - cbn [map app] in E. subst rem. inversion SD as [|? ? ? ? Lt SD']; subst. apply Forall_inv in L as Lt2. cbn [fst] in Lt2.
    set (g := ((t - now - 1) / 100)%N). pose proof (N.div_mod (t - now - 1) 100 ltac:(lia)) as DM. fold g in DM.
    pose proof (N.mod_lt (t - now - 1) 100 ltac:(lia)) as ML. assert (IG : N.of_nat (N.to_nat g) = g) by apply N2Nat.id. clearbody g.
    assert (Gs : (now + 100 * g < t <= now + 100 * g + 100)%N) by lia. assert (G9 : (g <= 9)%N) by lia.
    assert (Q : quiet_for (100 * g) c).
    { destruct H as (T & E & A & C). split; [exact A|split; [exact C|]]. rewrite T, E. apply later_arriving. constructor; [cbn [fst]; lia|].
      apply steady_ge in SD'. eapply Forall_impl; [|exact SD']. cbn [fst]. intros. lia. }
    destruct (listen_quiet (N.to_nat g) c _ Q) as (LA & LN & (QA & QC & _)); [lia|].
    assert (EV : ck_events (snd (listen (N.to_nat g) c)) = arriving ((t, m) :: S)).
    { rewrite (listen_events _ _ _ Q) by lia. exact (proj1 (proj2 H)). }
    destruct (step_arriving (snd (listen (N.to_nat g) c)) (now + 100 * g) t m S) as (len & now' & R & Ln & A').
    { split; [rewrite LN, (proj1 H); lia|]. split; [exact EV|split; [exact QA|exact QC]]. }
    { lia. }
    { exact SD'. }
    { exact Sm. }
    destruct (read_stream_c (snd (listen (N.to_nat g) c))) as [r c1] eqn:ER. cbn [fst snd] in *. destruct (ONE _ _ _ ER) as (O1 & O2).
    exists (N.to_nat g), now'. rewrite attempts_app, O1, R, listen_app. cbn [snd]. rewrite O2.
    split; [|split; [lia|split; [lia|split; [exact Ln|exact A']]]].
    f_equal; [|destruct m; reflexivity]. unfold attempts. rewrite LA. clear. induction (N.to_nat g) as [|j IH]; [reflexivity|]. cbn [repeat map brings option_map]. now rewrite IH.
  - cbn [map app] in E. injection E as <- <- ->.
    destruct (step_waiting c t m ms rem H L SD Sm) as (len & now' & R & Ln & A').
    destruct (read_stream_c c) as [r c1] eqn:ER. cbn [fst snd] in *. destruct (ONE _ _ _ ER) as (O1 & O2).
    exists 0%nat, now'. cbn [Nat.add]. rewrite O1, R, O2. split; [destruct m; reflexivity|split; [lia|split; [lia|split; [exact Ln|exact A']]]].
Qed.

(** The handshake, with whatever arrives together with it. *)
Lemma handshake_next : forall c now t h l, holds c now [] ((t, TData h) :: arriving l) -> (now < t <= now + 100)%N -> steady 1000 t l ->
  List.length h = 68%nat -> hd 0%N h = 19%N ->
  fst (read_stream_c c) = Some (h, 19%N, 68%N) /\ at_ (snd (read_stream_c c)) t l.
Proof.
  intros c now t h l (T & E & A & C) Lt S Lh Hh. destruct (burst_arriving _ _ _ S) as (a & b & -> & LB & SB & B).
  assert (Nh : h <> []) by (now intros ->).
  assert (W : fst (wait c) = TData (h ++ wire a) /\ holds (snd (wait c)) t [] (arriving b) /\ ck_stream (snd (wait c)) = ck_stream c).
  { unfold wait. cbn zeta. rewrite T, E, A, C. change READ_TIMEOUT with 100%N. rewrite (proj2 (N.leb_gt t now)) by lia. cbn [orb].
    rewrite (proj2 (N.leb_le t (now + 100))) by lia. unfold due. cbn [burst]. rewrite N.leb_refl, B. cbn [fst snd ck_stream].
    split; [reflexivity|]. split; [|reflexivity]. unfold holds. cbn. auto. }
  set (av := h ++ wire a) in *. assert (Nav : av <> []) by (unfold av; destruct h; [easy|discriminate]).
  assert (LN : (68 <= lenN av)%N) by (unfold lenN, av; rewrite app_length; lia).
  assert (T68 : takeN 68 av = h).
  { unfold takeN, av in *. destruct (N.leb_spec (lenN (h ++ wire a)) 68) as [G|G].
    - assert (Z : List.length (wire a) = 0%nat) by (unfold lenN in *; rewrite app_length in *; lia). destruct (wire a); [apply app_nil_r|easy].
    - change (N.to_nat 68) with 68%nat. rewrite <- Lh, firstn_app, Nat.sub_diag, firstn_all. apply app_nil_r. }
  assert (D68 : dropN 68 av = wire a).
  { unfold dropN, av in *. destruct (N.leb_spec (lenN (h ++ wire a)) 68) as [G|G].
    - assert (Z : List.length (wire a) = 0%nat) by (unfold lenN in *; rewrite app_length in *; lia). destruct (wire a); [reflexivity|easy].
    - change (N.to_nat 68) with 68%nat. rewrite <- Lh, skipn_app, Nat.sub_diag, skipn_all. reflexivity. }
  unfold read_stream_c, has_messages_c.
  assert (P1 : forall n, fst (peek_c n c) = Some (takeN n av) /\ holds (snd (peek_c n c)) t av (arriving b)).
  { intros n. unfold peek_c. destruct W as (K & (T' & E' & A' & C') & St). destruct (wait c) as [k c1]. cbn [fst snd] in *. subst k.
    unfold peek, env_step, with_sched. cbn [st_sched st_avail st_closed]. rewrite A', C'. cbn [app st_avail st_closed].
    destruct av as [|x d]; [easy|]. cbn [fst snd]. split; [reflexivity|]. unfold holds. cbn. auto. }
  destruct (P1 1%N) as (P & H1). destruct (peek_c 1 c) as [pk c1]. cbn [fst snd] in *. subst pk.
  destruct (takeN_1 _ Nav) as (x & y & ->). cbn [negb].
  destruct (peek_holds 68 c1 t av _ H1 Nav LB) as (P2 & H2). destruct (peek_c 68 c1) as [pk c2]. cbn [fst snd] in *. subst pk.
  rewrite T68, Hh. assert (L68 : lenN h = 68%N) by (unfold lenN; rewrite Lh; reflexivity). rewrite L68. cbn [N.eqb Pos.eqb andb].
  destruct (read_holds 68 c2 t av _ H2 Nav LB) as (P3 & H3). destruct (read_c 68 c2) as [rd c3]. cbn [fst snd] in *. subst rd.
  rewrite T68. cbn [fst snd]. split.
  - f_equal. f_equal. f_equal. unfold overlay. rewrite Lh. rewrite skipn_all2 by (cbn; lia). apply app_nil_r.
  - rewrite D68 in H3. exists a, b. auto.
Qed.

(** Messages, each after at most nine attempts in vain. *)
Inductive spaced : list raw -> list heard -> Prop :=
| sp_nil : spaced [] []
| sp_cons g m l c : (g <= 9)%nat -> spaced l c -> spaced (m :: l) (repeat None g ++ Some m :: c).
Lemma spaced_app : forall l c l' c', spaced l c -> spaced l' c' -> spaced (l ++ l') (c ++ c').
Proof.
  intros l c l' c' S S'. induction S as [|g m l c G S IH]; [exact S'|]. rewrite <- app_assoc. cbn [app]. now constructor.
Qed.
Lemma somes_repeat : forall g (c : list heard), somes (repeat None g ++ c) = somes c.
Proof. induction g as [|g IH]; intros c; [reflexivity|]. cbn. apply IH. Qed.
Lemma spaced_somes : forall l c, spaced l c -> somes c = l.
Proof. intros l c S. induction S as [|g m l c G S IH]; [reflexivity|]. rewrite somes_repeat. cbn. unfold heard, somes in *. now f_equal. Qed.
Lemma spaced_length : forall l c, spaced l c -> (List.length c <= 10 * List.length l)%nat.
Proof.
  intros l c S. induction S as [|g m l c G S IH]; [cbn; lia|]. rewrite app_length, repeat_length. cbn [List.length]. unfold heard in *. lia.
Qed.
Lemma spaced_talks : forall l c, spaced l c -> talkative 10 c.
Proof.
  intros l c S. induction S as [|g m l c G S IH]; intros a b j E.
  - destruct a; [|easy]. destruct j; [lia|easy].
  - replace (repeat None g ++ Some m :: c) with ((repeat None g ++ [Some m]) ++ c) in E by (now rewrite <- app_assoc).
    symmetry in E. pose proof (app_split _ _ _ _ _ E) as [(z & Nz & ->)|(y & E1 & E2)].
    + rewrite <- app_assoc in E. apply app_inv_head in E. eapply IH. symmetry. exact E.
    + assert (YS : y = [] \/ exists y' o, y = y' ++ [o]) by (induction y using rev_ind; eauto). destruct YS as [->|(y' & o & ->)].
      * apply (IH [] b j). symmetry. exact E2.
      * rewrite app_assoc in E1. apply app_inj_tail in E1 as [E1 <-]. apply (f_equal (@List.length _)) in E1 as LE. rewrite repeat_length, app_length in LE.
        destruct (Nat.le_gt_cases j (List.length y')) as [K|K]; [lia|]. exfalso. rewrite <- app_assoc in E2. cbn [app] in E2.
        apply (f_equal (fun l => nth_error l (List.length y'))) in E2. rewrite nth_error_app1 in E2 by (now rewrite repeat_length).
        rewrite nth_error_app2, Nat.sub_diag in E2 by lia. cbn in E2. rewrite (nth_error_repeat None K) in E2. discriminate.
Qed.

(** Reading on from message to message. *)
Lemma last_time_app : forall a b t, last_time t (a ++ b) = last_time (last_time t a) b.
Proof. induction a as [|[t' m] a IH]; intros b t; [reflexivity|]. apply IH. Qed.
Lemma walk : forall A S c now, at_ c now (A ++ S) -> Forall sound (msgs A) ->
  exists cs now', attempts (List.length cs) c = cs /\ spaced (msgs A) cs /\
    (now + 100 * N.of_nat (List.length cs) <= last_time now A + 100 * N.of_nat (List.length A))%N /\
    (now' <= match A with [] => now | _ => last_time now A + 200 end)%N /\ at_ (snd (listen (List.length cs) c)) now' S.
Proof.
  induction A as [|[t m] A IH]; intros S c now H F.
  - exists [], now. split; [reflexivity|]. split; [constructor|]. split; [cbn; lia|]. split; [lia|exact H].
  - cbn [app] in H. unfold msgs in F. cbn [map snd] in F. apply Forall_cons_iff in F as [Fm F].
    destruct (step_at c now t m (A ++ S) H Fm) as (g & now1 & AT & G & T1 & T2 & H1).
    destruct (IH S _ now1 H1 F) as (cs & now2 & AT2 & SP & T3 & T4 & H2).
    set (w := repeat None g ++ Some m :: cs : list heard). exists w, now2.
    assert (LEN : List.length w = (g + 1 + List.length cs)%nat).
    { unfold w, heard in *. rewrite app_length, repeat_length. cbn [List.length]. rewrite <- Nat.add_assoc. reflexivity. }
    rewrite LEN, attempts_app, AT, AT2, listen_app. cbn [snd]. split; [unfold w; rewrite <- app_assoc; reflexivity|]. split; [now constructor|].
    destruct A as [|[t' m'] A].
    + inversion SP; subst. cbn [last_time List.length] in *. split; [lia|]. split; [lia|exact H2].
    + cbn [last_time List.length] in *. unfold heard in *. split; [lia|]. split; [lia|exact H2].
Qed.
Lemma at_now : forall c now S, at_ c now S -> ck_now c = now.
Proof. intros c now S (ms & rem & _ & (T & _) & _). exact T. Qed.

(** ** What a session with a near peer reads *)
Lemma near_read : forall ih size now t0 h opening rest, near ih size now t0 h opening rest ->
  let c := opened_at now (from_near t0 h (opening ++ rest)) [] in
  exists op rs, attempts (S (List.length op + List.length rs)) c = Some (19%N, h) :: op ++ rs /\
    spaced (msgs opening) op /\ spaced (msgs rest) rs /\ (List.length op <= 10)%nat /\
    (over_at (S (List.length op + List.length rs)) c <= last_time t0 (opening ++ rest) + 200)%N.
Proof.
  intros ih size now t0 h opening rest [Ls (Lh & Hh & _) Sd Lo _ _ _ Sm] c.
  assert (F : forall l, (forall t r, In (t, r) l -> In (t, r) (opening ++ rest)) -> Forall sound (msgs l)).
  { intros l I. apply Forall_map, Forall_forall. intros [t r] J. exact (Sm _ _ (I _ _ J)). }
  destruct (handshake_next c now t0 h (opening ++ rest)) as (R & H); auto.
  { unfold holds, c, opened_at, from_near. cbn. auto. }
  destruct (walk opening rest _ t0 H) as (op & now1 & AT1 & SP1 & T1 & T2 & H1); [apply F; intros; apply in_or_app; auto|].
  destruct (walk rest [] _ now1 ltac:(rewrite app_nil_r; exact H1)) as (rs & now2 & AT2 & SP2 & T3 & T4 & H2); [apply F; intros; apply in_or_app; auto|].
  exists op, rs. unfold over_at.
  assert (E1 : listen 1 c = ([Some (h, 19, 68)]%N, snd (read_stream_c c))).
  { cbn [listen]. destruct (read_stream_c c) as [r c1]. cbn [fst snd] in *. now subst r. }
  change (S (List.length op + List.length rs)) with (1 + (List.length op + List.length rs))%nat.
  rewrite attempts_app, !listen_app, attempts_app. unfold attempts at 1. rewrite E1. cbn [fst snd map brings option_map app]. rewrite AT1, AT2.
  split; [reflexivity|]. split; [exact SP1|]. split; [exact SP2|]. split.
  - assert (Q : (N.of_nat (List.length op) <= N.of_nat (List.length opening) + (last_time t0 opening - t0) / 100)%N).
    { set (d := (last_time t0 opening - t0)%N) in *. unfold heard in *. assert (100 * (N.of_nat (List.length op) - N.of_nat (List.length opening)) <= d)%N by lia.
      pose proof (N.div_le_lower_bound d 100 (N.of_nat (List.length op) - N.of_nat (List.length opening)) ltac:(lia) ltac:(lia)). lia. }
    set (q := ((last_time t0 opening - t0) / 100)%N) in *. clearbody q. clear - Q Lo. change (List.length op) with (@List.length heard op). lia.
  - rewrite (at_now _ _ _ H2), last_time_app. destruct rest as [|[t m] rest], opening; cbn [last_time] in *; lia.
Qed.
