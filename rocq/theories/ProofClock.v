(** ProofClock: lemmas for PropClock *)
From Verif Require Import Base ModelStream ModelClock SpecMessages SpecStream SpecPeer SpecVerdict SpecClock ProofBase ProofStream.

(** ** In time or not, the same happens *)
Definition ticks_bytes (ks : list tick) : bytes := flat_map (fun k => match k with TData d => d | _ => [] end) ks.
Lemma ticks_app : forall a b, ticks_bytes (a ++ b) = ticks_bytes a ++ ticks_bytes b.
Proof. intros. apply flat_map_app. Qed.
Definition refines {A} (f : stream -> A * stream) (g : clocked -> A * clocked) : Prop :=
  forall c, exists ks, ck_log (snd (g c)) = ck_log c ++ ks /\
    ticks_bytes ks ++ sent_bytes (ck_events (snd (g c))) = sent_bytes (ck_events c) /\
    forall rest, f (with_sched (ck_stream c) (ks ++ rest)) = (fst (g c), with_sched (ck_stream (snd (g c))) rest).

Lemma burst_bytes : forall now evs, fst (burst now evs) ++ sent_bytes (snd (burst now evs)) = sent_bytes evs.
Proof.
  intros now. induction evs as [|[t k] r IH]; [reflexivity|]. cbn [burst]. destruct k as [d| |]; try reflexivity.
  destruct (t <=? now)%N; [|reflexivity]. destruct (burst now r) as [d' r']. cbn [fst snd] in *.
  unfold sent_bytes in *. cbn [flat_map snd]. rewrite <- IH, app_assoc. reflexivity.
Qed.
Lemma due_bytes : forall now evs, ticks_bytes [fst (due now evs)] ++ sent_bytes (snd (due now evs)) = sent_bytes evs.
Proof.
  intros now evs. unfold due. pose proof (burst_bytes now evs) as B. unfold ticks_bytes. cbn [flat_map].
  destruct evs as [|[t k] r]; [reflexivity|]. destruct k as [d| |].
  - destruct (burst now _) as [d' r']. cbn [fst snd] in *. rewrite app_nil_r. exact B.
  - destruct (t <=? now)%N; reflexivity.
  - destruct (t <=? now)%N; reflexivity.
Qed.
Lemma wait_run : forall c, let k := fst (wait c) in let c1 := snd (wait c) in
  ck_log c1 = ck_log c ++ [k] /\ ck_stream c1 = ck_stream c /\
  ticks_bytes [k] ++ sent_bytes (ck_events c1) = sent_bytes (ck_events c).
Proof.
  intros c. unfold wait. cbn zeta.
  assert (H : forall now, let x := (let (k, r) := due now (ck_events c) in
    (k, {| ck_now := now; ck_events := r; ck_log := ck_log c ++ [k]; ck_stream := ck_stream c |})) in
    ck_log (snd x) = ck_log c ++ [fst x] /\ ck_stream (snd x) = ck_stream c /\
    ticks_bytes [fst x] ++ sent_bytes (ck_events (snd x)) = sent_bytes (ck_events c)).
  { intros now. cbn zeta. pose proof (due_bytes now (ck_events c)) as B. destruct (due now (ck_events c)). split; [reflexivity|split; [reflexivity|exact B]]. }
  destruct (ck_events c) as [|[t e] r]; [destruct (match st_avail _ with [] => _ | _ => _ end); apply H|].
  destruct (_ || _); [apply H|]. destruct (_ <=? _)%N; apply H.
Qed.

Lemma peek_with : forall n s k rest, peek n (with_sched s (k :: rest)) =
  (fst (peek n (with_sched s [k])), with_sched (snd (peek n (with_sched s [k]))) rest).
Proof.
  intros n [av cl sch ws se] k rest. unfold peek, env_step, with_sched. cbn.
  destruct k; cbn; try reflexivity; [destruct cl; destruct (av ++ chunk)|]; destruct av; reflexivity.
Qed.
Lemma read_with : forall n s k rest, read n (with_sched s (k :: rest)) =
  (fst (read n (with_sched s [k])), with_sched (snd (read n (with_sched s [k]))) rest).
Proof.
  intros n [av cl sch ws se] k rest. unfold read, env_step, with_sched. cbn.
  destruct k; cbn; try reflexivity; [destruct cl; destruct (av ++ chunk)|]; destruct av; reflexivity.
Qed.

Lemma peek_refines : forall n, refines (peek n) (peek_c n).
Proof.
  intros n c. unfold peek_c. destruct (wait_run c) as (L & S & B). destruct (wait c) as [k c1]. cbn [fst snd] in *.
  exists [k]. rewrite S. pose proof (peek_with n (ck_stream c) k) as P.
  destruct (peek n (with_sched (ck_stream c) [k])) as [r s]. cbn [fst snd set_stream ck_log ck_stream ck_events] in *. split; [exact L|split; [exact B|exact P]].
Qed.
Lemma read_refines : forall n, refines (read n) (read_c n).
Proof.
  intros n c. unfold read_c. destruct (wait_run c) as (L & S & B). destruct (wait c) as [k c1]. cbn [fst snd] in *.
  exists [k]. rewrite S. pose proof (read_with n (ck_stream c) k) as P.
  destruct (read n (with_sched (ck_stream c) [k])) as [r s]. cbn [fst snd set_stream ck_log ck_stream ck_events] in *. split; [exact L|split; [exact B|exact P]].
Qed.

Lemma refines_ret : forall A (a : A), refines (fun s => (a, s)) (fun c => (a, c)).
Proof. intros A a c. exists []. rewrite app_nil_r. split; [|split]; reflexivity. Qed.
Lemma refines_bind : forall A B (f : stream -> A * stream) g (h : A -> stream -> B * stream) k,
  refines f g -> (forall a, refines (h a) (k a)) ->
  refines (fun s => let (a, s1) := f s in h a s1) (fun c => let (a, c1) := g c in k a c1).
Proof.
  intros A B f g h k F H c. destruct (F c) as (ks & L & E & R). destruct (g c) as [a c1]. cbn [fst snd] in *.
  destruct (H a c1) as (ks2 & L2 & E2 & R2). exists (ks ++ ks2). split; [rewrite L2, L, app_assoc; reflexivity|].
  split; [rewrite ticks_app, <- app_assoc, E2; exact E|].
  intros rest. rewrite <- app_assoc, R. apply R2.
Qed.
Lemma refines_sleep : forall A (f : stream -> A * stream) g ms, refines f g -> refines f (fun c => g (sleep ms c)).
Proof. intros A f g ms R c. exact (R (sleep ms c)). Qed.

Lemma has_refines : refines has_messages has_messages_c.
Proof. apply (refines_bind _ _ (peek 1) (peek_c 1) _ _ (peek_refines 1)). intros a. apply refines_ret. Qed.
Lemma peek_and_read_refines : forall len, refines (peek_and_read len) (peek_and_read_c len).
Proof.
  intros len. apply (refines_bind _ _ (peek len) (peek_c len) _ _ (peek_refines len)). intros a.
  destruct (_ =? len)%N; [|apply refines_ret].
  apply (refines_bind _ _ (read len) (read_c len) _ _ (read_refines len)). intros b. cbn zeta.
  destruct (_ =? len)%N; apply refines_ret.
Qed.
Lemma body_refines : forall tries retry len, refines (read_body tries len) (read_body_c tries retry len).
Proof.
  induction tries as [|t IH]; intros retry len; [apply refines_ret|].
  apply (refines_bind _ _ (peek_and_read len) (peek_and_read_c len)
    (fun r s1 => match r with Some body => (Some body, s1) | None => read_body t len s1 end)
    (fun r c1 => match r with Some body => (Some body, c1) | None => read_body_c t (retry + 1) len (sleep (5 * retry) c1) end)
    (peek_and_read_refines len)).
  intros [b|]; [apply refines_ret|]. apply (refines_sleep _ (read_body t len) (read_body_c t (retry + 1) len)). apply IH.
Qed.
Lemma frame_refines : refines read_frame read_frame_c.
Proof.
  apply (refines_bind _ _ (read 4) (read_c 4) _ _ (read_refines 4)). intros [got|]; [|apply refines_ret]. cbn zeta.
  apply (refines_bind _ _ (read 1) (read_c 1) _ _ (read_refines 1)). intros [got1|]; [|apply refines_ret]. cbn zeta.
  destruct (_ =? 0)%N; [apply refines_ret|].
  apply (refines_bind _ _ (read_body 39 _) (read_body_c 39 1 _) _ _ (body_refines 39 1 _)). intros [b|]; apply refines_ret.
Qed.
Lemma stream_refines : refines read_stream read_stream_c.
Proof.
  apply (refines_bind _ _ has_messages has_messages_c _ _ has_refines). intros [|]; cbn [negb]; [|apply refines_ret].
  apply (refines_bind _ _ (peek 68) (peek_c 68) _ _ (peek_refines 68)). intros [b|]; [|apply frame_refines].
  destruct (_ && _); [|apply frame_refines].
  apply (refines_bind _ _ (read 68) (read_c 68) _ _ (read_refines 68)). intros [got|]; apply refines_ret.
Qed.
Lemma listen_refines : forall n, refines (read_messages n) (listen n).
Proof.
  induction n as [|n IH]; [apply refines_ret|].
  apply (refines_bind _ _ read_stream read_stream_c _ _ stream_refines). intros r.
  apply (refines_bind _ _ (read_messages n) (listen n) _ _ IH). intros rs. apply refines_ret.
Qed.

(** ** How long it takes *)
Definition something (c : clocked) : Prop := st_avail (ck_stream c) <> [] \/ st_closed (ck_stream c) = true.

Lemma wait_time : forall c, (ck_now c <= ck_now (snd (wait c)) <= ck_now c + 100)%N /\
  (something c -> ck_now (snd (wait c)) = ck_now c).
Proof.
  intros c. unfold wait, something. cbn zeta. change READ_TIMEOUT with 100%N.
  assert (H : forall now, ck_now (snd (let (k, r) := due now (ck_events c) in
    (k, {| ck_now := now; ck_events := r; ck_log := ck_log c ++ [k]; ck_stream := ck_stream c |}))) = now).
  { intros now. destruct (due now (ck_events c)). reflexivity. }
  destruct (ck_events c) as [|[t e] r].
  - destruct (st_avail (ck_stream c)); [destruct (st_closed (ck_stream c))|]; rewrite H; (split; [lia|]); auto.
    intros [?|?]; [easy|discriminate].
  - destruct (t <=? ck_now c)%N eqn:E; cbn [orb]; [rewrite H; split; [lia|auto]|]. apply N.leb_gt in E.
    destruct (st_avail (ck_stream c)); [destruct (st_closed (ck_stream c))|].
    1,3: rewrite H; (split; [lia|]); auto.
    destruct (t <=? ck_now c + 100)%N eqn:E2; rewrite H; [apply N.leb_le in E2|]; (split; [lia|]); intros [?|?]; easy.
Qed.

Definition lasts {A} (ms : N) (g : clocked -> A * clocked) : Prop :=
  forall c, (ck_now c <= ck_now (snd (g c)) <= ck_now c + ms)%N.

Lemma peek_lasts : forall n, lasts 100 (peek_c n).
Proof.
  intros n c. unfold peek_c. pose proof (wait_time c) as [T _]. destruct (wait c) as [k c1]. destruct (peek n _). exact T.
Qed.
Lemma read_lasts : forall n, lasts 100 (read_c n).
Proof.
  intros n c. unfold read_c. pose proof (wait_time c) as [T _]. destruct (wait c) as [k c1]. destruct (read n _). exact T.
Qed.
Lemma peek_quick : forall n c, something c -> ck_now (snd (peek_c n c)) = ck_now c.
Proof.
  intros n c S. unfold peek_c. pose proof (wait_time c) as [_ T]. destruct (wait c) as [k c1]. destruct (peek n _). exact (T S).
Qed.
Lemma read_quick : forall n c, something c -> ck_now (snd (read_c n c)) = ck_now c.
Proof.
  intros n c S. unfold read_c. pose proof (wait_time c) as [_ T]. destruct (wait c) as [k c1]. destruct (read n _). exact (T S).
Qed.
(** After a peek there is what there was, and something if anything was seen. *)
Lemma peek_after : forall n c, (something c \/ exists g, fst (peek_c n c) = Some g) -> something (snd (peek_c n c)).
Proof.
  intros n c H. unfold peek_c in *. destruct (wait_run c) as (_ & S & _). destruct (wait c) as [k c1]. cbn [fst snd] in S. rewrite S in *. clear S.
  unfold something in *. unfold peek, env_step, with_sched in *. cbn [st_sched st_avail st_closed] in *.
  destruct (ck_stream c) as [av cl sch ws se]. cbn [st_avail st_closed] in *.
  destruct k as [d| |]; cbn [st_avail st_closed].
  - destruct cl.
    + destruct av; cbn; right; reflexivity.
    + destruct (av ++ d) eqn:E; cbn [snd set_stream ck_stream st_avail st_closed fst] in *.
      * apply app_eq_nil in E as [-> ->]. destruct H as [[H|H]|(g & H)]; [easy|discriminate|discriminate].
      * left. discriminate.
  - cbn in *. destruct H as [H|(g & H)]; [exact H|discriminate].
  - destruct av; cbn; right; reflexivity.
Qed.

Lemma body_try_lasts : forall len, (0 < len)%N -> lasts 100 (peek_and_read_c len).
Proof.
  intros len L c. unfold peek_and_read_c. pose proof (peek_lasts len c) as T. pose proof (peek_after len c) as A.
  destruct (peek_c len c) as [[g|] c1]; cbn [fst snd] in *.
  - destruct (lenN g =? len)%N; [|exact T]. pose proof (read_quick len c1 (A (or_intror (ex_intro _ g eq_refl)))) as Q.
    destruct (read_c len c1) as [rd c2]. cbn [snd] in Q. destruct (_ =? len)%N; cbn [snd]; lia.
  - rewrite (proj2 (N.eqb_neq 0 len)) by lia. exact T.
Qed.
Lemma empty_body_lasts : forall tries retry, lasts 200 (read_body_c tries retry 0).
Proof.
  intros [|t] retry c; [cbn; lia|]. cbn [read_body_c]. unfold peek_and_read_c.
  pose proof (peek_lasts 0 c) as T. destruct (peek_c 0 c) as [pk c1] eqn:E. cbn [snd] in T.
  assert (Z : (match pk with Some got => lenN got | None => 0 end =? 0)%N = true).
  { unfold peek_c in E. destruct (wait c) as [k c2]. unfold peek in E. destruct (env_step _) as [f s].
    destruct f; [injection E as <- <-; reflexivity|]. destruct (st_avail s) as [|b t']; [destruct (st_closed s); injection E as <- <-; reflexivity|].
    injection E as <- <-. unfold takeN. destruct (_ <=? _)%N eqn:L; [|reflexivity]. apply N.leb_le in L. rewrite lenN_cons in L. lia. }
  rewrite Z. pose proof (read_lasts 0 c1) as T2. destruct (read_c 0 c1) as [rd c2] eqn:E2. cbn [snd] in T2.
  assert (Z2 : (lenN (match rd with Some got => got | None => [] end) =? 0)%N = true).
  { unfold read_c in E2. destruct (wait c1) as [k c3]. unfold read in E2. destruct (env_step _) as [f s].
    destruct f; [injection E2 as <- <-; reflexivity|]. destruct (st_avail s) as [|b t']; [destruct (st_closed s); injection E2 as <- <-; reflexivity|].
    injection E2 as <- <-. unfold takeN. destruct (_ <=? _)%N eqn:L; [|reflexivity]. apply N.leb_le in L. rewrite lenN_cons in L. lia. }
  destruct rd as [g|]; [rewrite Z2|]; cbn [snd lenN countN N.eqb List.length N.of_nat]; lia.
Qed.
(** The pauses add up: 5 + 10 + ... *)
Fixpoint pauses (tries : nat) (retry : N) : N := match tries with O => 0 | S t => 5 * retry + pauses t (retry + 1) end%N.
Lemma body_lasts : forall len, (0 < len)%N -> forall tries retry c,
  (ck_now c <= ck_now (snd (read_body_c tries retry len c)) <= ck_now c + N.of_nat tries * 100 + pauses tries retry)%N.
Proof.
  intros len L. induction tries as [|t IH]; intros retry c; [cbn; lia|]. cbn [read_body_c pauses].
  pose proof (body_try_lasts len L c) as T. destruct (peek_and_read_c len c) as [[b|] c1]; cbn [snd] in *; [lia|].
  specialize (IH (retry + 1)%N (sleep (5 * retry) c1)). cbn [sleep ck_now] in IH. lia.
Qed.

Lemma frame_lasts : forall c, something c -> (ck_now c <= ck_now (snd (read_frame_c c)) <= ck_now c + 7900)%N.
Proof.
  intros c S. unfold read_frame_c. pose proof (read_quick 4 c S) as Q. destruct (read_c 4 c) as [[got|] c1]; cbn [snd] in Q; [|cbn [snd]; lia].
  cbn zeta. pose proof (read_lasts 1 c1) as T. destruct (read_c 1 c1) as [[got1|] c2]; cbn [snd] in T; [|cbn [snd]; lia].
  destruct (_ =? 0)%N; [cbn [snd]; lia|]. remember (from_be (overlay [0; 0; 0; 0]%N got) - 1)%N as len eqn:El. clear El.
  destruct (N.eq_dec len 0) as [->|NZ].
  - pose proof (empty_body_lasts 39 1 c2) as B. destruct (read_body_c 39 1 0 c2) as [[b|] c3]; cbn [snd] in *; lia.
  - pose proof (body_lasts len ltac:(lia) 39 1 c2) as B. destruct (read_body_c 39 1 len c2) as [[b|] c3]; cbn [snd] in *;
    replace (pauses 39 1) with 3900%N in B by reflexivity; lia.
Qed.

Lemma stream_lasts : lasts 8000 read_stream_c.
Proof.
  intros c. unfold read_stream_c, has_messages_c. pose proof (peek_lasts 1 c) as T. pose proof (peek_after 1 c) as A.
  destruct (peek_c 1 c) as [r c1]. cbn [fst snd] in *. destruct r as [[|b g]|]; cbn [negb snd]; [lia| |lia].
  assert (S1 : something c1) by (apply A; right; eauto). pose proof (peek_quick 68 c1 S1) as Q. pose proof (peek_after 68 c1 (or_introl S1)) as S2.
  destruct (peek_c 68 c1) as [r c2]. cbn [snd] in *. pose proof (frame_lasts c2 S2) as F.
  destruct r as [buffer|]; [|lia]. destruct (_ && _); [|lia].
  pose proof (read_quick 68 c2 S2) as Q2. destruct (read_c 68 c2) as [[got|] c3]; cbn [snd] in *; lia.
Qed.
