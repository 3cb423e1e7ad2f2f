(** ProofServe: proofs for property C82, servers that answer what they are asked *)
From Verif Require Import Base ModelBencode ModelMessages ModelTorrent ModelTracker ModelStream ModelPeer ModelLive
  SpecBencode SpecTorrent SpecMessages SpecStream SpecWriter SpecPieces SpecPeer SpecSession SpecLive
  ProofBase ProofBencode ProofBencode2 ProofTorrent ProofMessages ProofPieces ProofStream ProofPeer ProofSession ProofLive.

(** ** Sockets that stay open *)
Definition is_data (t : tick) : Prop := match t with TData _ => True | _ => False end.
Definition stays_open {A} (f : stream -> A * stream) : Prop := forall s, Forall is_data (st_sched s) -> st_closed s = false ->
  Forall is_data (st_sched (snd (f s))) /\ st_closed (snd (f s)) = false.
Lemma open_ret : forall A (a : A), stays_open (fun s => (a, s)).
Proof. intros A a s D C. auto. Qed.
Lemma open_bind : forall A B (f : stream -> A * stream) (g : A -> stream -> B * stream), stays_open f -> (forall a, stays_open (g a)) ->
  stays_open (fun s => let (a, s1) := f s in g a s1).
Proof.
  intros A B f g F G s D C. specialize (F s D C). destruct (f s) as [a s1]. apply G; apply F.
Qed.
Lemma open_env : stays_open env_step.
Proof.
  intros s D C. unfold env_step. destruct (st_sched s) as [|t l] eqn:E; cbn [snd]; [rewrite E; auto|].
  apply Forall_cons_iff in D as [T D]. destruct t; try contradiction. cbn. auto.
Qed.
Lemma open_peek : forall n, stays_open (peek n).
Proof. intros n. unfold peek. apply open_bind; [apply open_env|]. intros [|] s D C; [auto|]. destruct (st_avail s); auto. Qed.
Lemma open_read : forall n, stays_open (read n).
Proof. intros n. unfold read. apply open_bind; [apply open_env|]. intros [|] s D C; [auto|]. destruct (st_avail s); auto. Qed.
Lemma open_body : forall t len, stays_open (read_body t len).
Proof.
  induction t as [|t IH]; intros len; [apply open_ret|]. cbn [read_body]. apply open_bind.
  - unfold peek_and_read. apply open_bind; [apply open_peek|]. intros a. destruct (_ =? len)%N; [|apply open_ret].
    apply open_bind; [apply open_read|]. intros b. destruct (_ =? len)%N; apply open_ret.
  - intros [b|]; [apply open_ret|apply IH].
Qed.
Lemma open_frame : stays_open read_frame.
Proof.
  unfold read_frame. apply open_bind; [apply open_read|]. intros [g|]; [|apply open_ret]. apply open_bind; [apply open_read|].
  intros [h|]; [|apply open_ret]. destruct (_ =? 0)%N; [apply open_ret|]. apply open_bind; [apply open_body|]. intros [b|]; apply open_ret.
Qed.
Lemma open_stream : stays_open read_stream.
Proof.
  unfold read_stream. apply open_bind; [unfold has_messages; apply open_bind; [apply open_peek|]; intros a; apply open_ret|].
  intros b. destruct (negb b); [apply open_ret|]. apply open_bind; [apply open_peek|]. intros [g|]; [|apply open_frame].
  destruct (_ && _); [|apply open_frame]. apply open_bind; [apply open_read|]. intros [h|]; apply open_ret.
Qed.

Lemma data_no_error : forall l, Forall is_data l -> Forall (fun t => t <> TErr) l.
Proof. intros l H. apply Forall_impl with (2 := H). intros [c| |] D X; [discriminate|contradiction..]. Qed.

(** ** Reading one message *)
(** Bytes that are read as one message, whatever follows. *)
Definition reads_as (e : bytes) (v : bytes * N * N) : Prop := forall s rest, Forall (fun t => t <> TErr) (st_sched s) ->
  st_avail s = e ++ rest -> exists s' m, read_stream s = (Some v, s') /\ incoming s = e ++ incoming s' /\ st_avail s' = rest ++ m.
Lemma frame_reads : forall id body, short_body body -> reads_as (frame id body) (body, id, lenN body).
Proof. intros id body SB s rest D A. apply c30; [exact SB|now apply all_no_errors|exact A]. Qed.
Lemma handshake_reads : forall ih pid, List.length ih = 20%nat -> List.length pid = 20%nat ->
  reads_as (handshake_layout ih pid) (handshake_layout ih pid, 19%N, 68%N).
Proof.
  intros ih pid L1 L2 s rest D A. destruct (layout_parts ih pid L1 L2) as [P1 [P2 _]]. apply c30_handshake; [now apply all_no_errors|exact P1|exact P2|exact A].
Qed.

Lemma consumes_one : forall s t l a s', read_stream (given s (t :: l)) = (a, s') -> exists k, st_sched s' = skipn k l.
Proof.
  intros s t l a s' H.
  assert (P : sched_later (given s l) s').
  { assert (E1 : sched_later (given s l) (snd (has_messages (given s (t :: l))))).
    { unfold has_messages, peek, env_step, given. cbn [st_sched]. destruct t; cbn [snd fst];
        repeat match goal with |- context [match ?c with [] => _ | _ => _ end] => destruct c end; cbn [snd]; exists 0%nat; reflexivity. }
    assert (E2 : sched_later (snd (has_messages (given s (t :: l)))) s'); [|exact (later_trans _ _ _ E1 E2)].
    unfold read_stream in H. destruct (has_messages (given s (t :: l))) as [b s1]. cbn [snd]. destruct (negb b); [injection H as <- <-; apply later_refl|].
    pose proof (peek_later 68 s1) as E3. destruct (peek 68 s1) as [[g|] s2]; cbn [snd] in E3.
    - destruct (_ && _).
      + pose proof (read_later 68 s2) as E4. destruct (read 68 s2) as [[h|] s3]; injection H as <- <-; exact (later_trans _ _ _ E3 E4).
      + apply (later_trans _ _ _ E3). rewrite <- (f_equal snd H : _ = s'). apply frame_later.
    - apply (later_trans _ _ _ E3). rewrite <- (f_equal snd H : _ = s'). apply frame_later. }
  destruct P as [k E]. exists k. exact E.
Qed.

Lemma delivered_app : forall a b, Forall is_data a -> delivered false (a ++ b) = delivered false a ++ delivered false b.
Proof.
  induction a as [|t a IH]; intros b D; [reflexivity|]. apply Forall_cons_iff in D as [T D]. destruct t; try contradiction.
  cbn [app delivered]. rewrite (IH b D). apply app_assoc.
Qed.
(** A message is read; meanwhile [pre] happens. *)
Lemma read_some : forall s l e v s', Forall is_data l -> (READS < List.length l)%nat -> st_closed s = false ->
  read_stream (given s l) = (Some v, s') -> incoming (given s l) = e ++ incoming s' ->
  exists pre suf, l = pre ++ suf /\ st_sched s' = suf /\ (exists k, (k < List.length l)%nat /\ pre = firstn (S k) l) /\
    e ++ st_avail s' = st_avail s ++ delivered false pre /\ st_closed s' = false.
Proof.
  intros s l e v s' D L C E I.
  destruct (local_stream _ _ _ _ E) as [L1 P]. destruct P as [pre [EL _]]; [intros X; rewrite X in L1; cbn [List.length] in L1; lia|].
  exists pre, (st_sched s'). split; [exact EL|]. split; [reflexivity|].
  assert (Dp : Forall is_data pre) by (rewrite EL in D; apply Forall_app in D; apply D).
  assert (CL : st_closed s' = false) by (pose proof (open_stream (given s l) D C) as [_ O]; rewrite E in O; exact O).
  split; [|split; [|exact CL]].
  - destruct l as [|t l]; [cbn in L; lia|]. destruct (consumes_one _ _ _ _ _ E) as [k K].
    assert (LEN : (List.length pre = S (List.length l - List.length (st_sched s')))%nat).
    { assert (LL : List.length (t :: l) = (List.length pre + List.length (st_sched s'))%nat) by (rewrite EL at 1; apply app_length).
      assert (LS : (List.length (st_sched s') <= List.length l)%nat) by (rewrite K, skipn_length; lia). cbn [List.length] in LL. lia. }
    exists (List.length l - List.length (st_sched s'))%nat. split; [cbn [List.length]; lia|]. rewrite <- LEN, EL, firstn_app, firstn_all, Nat.sub_diag. cbn [firstn]. now rewrite app_nil_r.
  - unfold incoming in I. cbn [given st_avail st_closed st_sched] in I. rewrite C, CL in I. rewrite EL in I at 1.
    rewrite delivered_app in I by exact Dp. rewrite !app_assoc in I. symmetry. apply app_inv_tail in I. exact I.
Qed.

(** Of a message at least five bytes are there, and the rest comes in time. *)
Lemma read_partly : forall s l id body c more, short_body body -> Forall is_data l -> (READS < List.length l)%nat -> st_closed s = false ->
  st_avail s = c -> (5 <= List.length c)%nat -> c ++ delivered false (firstn 43 l) = frame id body ++ more ->
  exists pre suf s', l = pre ++ suf /\ read_stream (given s l) = (Some (body, id, lenN body), s') /\ st_sched s' = suf /\
    (exists k, (k < List.length l)%nat /\ pre = firstn (S k) l) /\
    frame id body ++ st_avail s' = c ++ delivered false pre /\ st_closed s' = false.
Proof.
  intros s l id body c more SB D L C A L5 E.
  assert (HD : exists part, c = big_endian 4 (lenN body + 1) ++ [id] ++ part).
  { rewrite frame_eq in E. rewrite !app_assoc in E. rewrite <- app_assoc in E. symmetry in E. apply prefix_by_length in E.
    - destruct E as [part ->]. exists part. now rewrite <- app_assoc.
    - rewrite app_length, be_length. cbn [List.length]. lia. }
  destruct HD as [part HC].
  destruct (c31 (given s l) id body part more) as (s' & m & RD & INC & _).
  - exact SB.
  - apply all_no_errors, data_no_error, D.
  - cbn [given st_avail]. rewrite A. exact HC.
  - unfold buffered_after. cbn [given st_avail st_closed st_sched]. rewrite A, C. exact E.
  - destruct (read_some _ _ _ _ _ D L C RD INC) as (pre & suf & E1 & E2 & E3 & E4 & E5). rewrite A in E4. exists pre, suf, s'. auto 10.
Qed.

(** The message at the front of the buffer is read; meanwhile [pre] happens. *)
Lemma read_front : forall s l e v rest, reads_as e v -> Forall is_data l -> (READS < List.length l)%nat -> st_closed s = false ->
  st_avail s = e ++ rest -> exists pre suf s', l = pre ++ suf /\ read_stream (given s l) = (Some v, s') /\ st_sched s' = suf /\
    (exists k, (k < List.length l)%nat /\ pre = firstn (S k) l) /\
    st_avail s' = rest ++ delivered false pre /\ st_closed s' = false.
Proof.
  intros s l e v rest RA D L C A.
  destruct (RA (given s l) rest) as [s' [m [E [INC _]]]]; [apply data_no_error, D|exact A|].
  destruct (read_some _ _ _ _ _ D L C E INC) as (pre & suf & E1 & E2 & E3 & E4 & E5).
  rewrite A, <- app_assoc in E4. apply app_inv_head in E4. exists pre, suf, s'. auto 10.
Qed.

(** An empty buffer behaves like the first thing that arrives. *)
Lemma read_empty : forall s c l, st_avail s = [] -> st_closed s = false ->
  read_stream (given s (TData c :: l)) = read_stream (given (set_avail s c) (TData [] :: l)).
Proof.
  intros s c l A C. unfold read_stream, has_messages, peek, env_step, given, set_avail. cbn [st_sched st_avail st_closed st_wsched st_sent].
  rewrite A, C. cbn [app]. rewrite app_nil_r. reflexivity.
Qed.
Lemma read_silent : forall s l, st_avail s = [] -> st_closed s = false ->
  read_stream (given s (TData [] :: l)) = (None, given s l).
Proof.
  intros s l A C. unfold read_stream, has_messages, peek, env_step, given. cbn [st_sched st_avail st_closed st_wsched st_sent].
  rewrite A, C. reflexivity.
Qed.

(** ** What a server says *)
Notation server_ticks := (says serving server_says).
Notation server_then := (said serving server_says).

Lemma ticks_data : forall n r, Forall is_data (server_ticks n r).
Proof. induction n as [|n IH]; intros r; cbn [says]; constructor; [exact I|apply IH]. Qed.

Lemma wire_app : forall a b, wire (a ++ b) = wire a ++ wire b.
Proof. intros a b. unfold wire. apply flat_map_app. Qed.

Lemma attempts_cons : forall q Q, attempts_for (q :: Q) = S (fst q + attempts_for Q).
Proof. reflexivity. Qed.

(** ** Messages in segments *)
Definition moments (l : list (nat * bytes)) : nat := list_sum (map (fun q => S (fst q)) l).
Lemma moments_cons : forall q l, moments (q :: l) = S (fst q + moments l).
Proof. reflexivity. Qed.
(** The last segment is not empty. *)
Definition ends (l : list (nat * bytes)) : Prop := forall pre q, l = pre ++ [q] -> snd q <> [].
Lemma ends_tail : forall q l, ends (q :: l) -> ends l.
Proof. intros q l E pre x ->. apply (E (q :: pre)). reflexivity. Qed.
Lemma ends_empty : forall l, ends l -> List.concat (map snd l) = [] -> l = [].
Proof.
  intros l E C. destruct l as [|a l]; [reflexivity|]. exfalso. destruct (@exists_last _ (a :: l)) as (pre & q & X); [discriminate|].
  apply (E pre q X). rewrite X, map_app, concat_app in C. apply app_eq_nil in C as [_ C]. cbn in C. now rewrite app_nil_r in C.
Qed.

(** Of [m] the bytes [c] have arrived, and the rest comes. *)
Definition rest_of (c : bytes) (segs : list (nat * bytes)) (m : raw) : Prop :=
  (5 <= List.length c)%nat /\ c ++ List.concat (map snd segs) = frame (fst m) (snd m) /\ (moments segs <= 42)%nat /\ ends segs.
Inductive encodes : list (nat * raw) -> list (nat * bytes) -> Prop :=
| en_nil : encodes [] []
| en_cons q m c segs Q E : rest_of c segs m -> encodes Q E -> encodes ((q, m) :: Q) ((q, c) :: segs ++ E).
Lemma encodes_app : forall Q E, encodes Q E -> forall Q' E', encodes Q' E' -> encodes (Q ++ Q') (E ++ E').
Proof.
  induction 1 as [|q m c segs Q E R H IH]; intros Q' E' H'; [exact H'|]. cbn [app]. rewrite <- app_assoc. constructor; auto.
Qed.
Lemma cut_ok : forall l q b, b <> [] -> exists c segs, cut q l b = (q, c) :: segs /\ c ++ List.concat (map snd segs) = b /\
  ends ((q, c) :: segs) /\ (moments segs <= list_sum (map (fun c => S (snd c)) l))%nat /\
  (c = b \/ exists n k t, l = (n, k) :: t /\ List.length c = n).
Proof.
  assert (ONE : forall q (b : bytes), b <> [] -> ends [(q, b)]).
  { intros q b NB pre x E. destruct pre as [|y [|z pre]]; [|discriminate..]. injection E as <-. exact NB. }
  induction l as [|[n k] l IH]; intros q b NB.
  - exists b, []. cbn [cut map List.concat list_sum fold_right moments]. rewrite app_nil_r. repeat split; auto.
  - cbn [cut]. destruct (Nat.ltb_spec n (List.length b)) as [L|L].
    + destruct (IH k (skipn n b)) as (c & segs & E1 & E2 & E3 & E4 & _).
      { intros X. apply (f_equal (@List.length _)) in X. rewrite skipn_length in X. cbn [List.length] in X. lia. }
      exists (firstn n b), ((k, c) :: segs). rewrite E1. split; [reflexivity|]. split; [cbn [map snd List.concat]; rewrite E2; apply firstn_skipn|].
      split.
      { intros pre x EX. destruct pre as [|y pre]; [discriminate|]. injection EX as _ EX. exact (E3 _ _ EX). }
      split; [rewrite moments_cons; cbn [map fst snd list_sum fold_right]; unfold list_sum in E4; lia|]. right. exists n, k, l. split; [reflexivity|]. apply firstn_length_le. lia.
    + exists b, []. cbn [map List.concat moments list_sum fold_right]. rewrite app_nil_r. split; [reflexivity|]. split; [reflexivity|]. split; [apply ONE, NB|]. split; [lia|auto].
Qed.
Lemma frame_length : forall id body, List.length (frame id body) = (5 + List.length body)%nat.
Proof. intros id body. rewrite frame_eq, !app_length, be_length. reflexivity. Qed.
Lemma frame_nonempty : forall m : raw, frame (fst m) (snd m) <> [].
Proof. intros m X. apply (f_equal (@List.length _)) in X. rewrite frame_length in X. discriminate. Qed.
Lemma encodes_encoded : forall v Q, (forall r, gentle (sd_cuts v r)) -> encodes Q (encoded v Q).
Proof.
  intros v Q G. induction Q as [|[q m] Q IH]; [constructor|]. cbn [encoded flat_map fst snd]. fold (encoded v Q).
  destruct (G m) as [G1 G2].
  destruct (cut_ok (sd_cuts v m) q (frame (fst m) (snd m)) (frame_nonempty m)) as (c & segs & -> & E2 & E3 & E4 & E5).
  cbn [app]. constructor; [|exact IH]. split; [|split; [exact E2|split; [lia|eapply ends_tail, E3]]].
  destruct E5 as [->|(n & k & t & EC & <-)]; [rewrite frame_length; lia|]. rewrite EC in G1. exact G1.
Qed.

(** What is still to come when [c] has arrived of the next message, if any of it. *)
Inductive owing : bytes -> list (nat * bytes) -> list (nat * raw) -> Prop :=
| ow_whole E Q : encodes Q E -> owing [] E Q
| ow_part c segs m E Q : rest_of c segs m -> encodes Q E -> owing c (segs ++ E) ((O, m) :: Q).
Lemma owing_app : forall c E Q, owing c E Q -> forall Q' E', encodes Q' E' -> owing c (E ++ E') (Q ++ Q').
Proof.
  intros c E Q H Q' E' H'. destruct H as [E Q H|c segs m E Q R H].
  - constructor. now apply encodes_app.
  - rewrite <- app_assoc. cbn [app]. constructor; [exact R|]. now apply encodes_app.
Qed.

Definition kept (Q Q' : list (nat * raw)) : Prop := forall B, Forall (fun q => fst q <= B)%nat Q -> Forall (fun q => fst q <= B)%nat Q'.
Lemma kept_refl : forall Q, kept Q Q.
Proof. intros Q B F. exact F. Qed.
Lemma kept_trans : forall a b c, kept a b -> kept b c -> kept a c.
Proof. intros a b c F G B H. apply G, F, H. Qed.
Lemma kept_cons : forall j k m Q Q', (j <= k)%nat -> kept Q Q' -> kept ((k, m) :: Q) ((j, m) :: Q').
Proof. intros j k m Q Q' L K B F. apply Forall_cons_iff in F as [H F]. constructor; [cbn in *; lia|apply K, F]. Qed.
Lemma kept_tail : forall q Q, kept (q :: Q) Q.
Proof. intros q Q B F. apply Forall_cons_iff in F. apply F. Qed.

(** Some things are said: [b] arrives, and of the messages to come [D] are complete. *)
Definition arrived (c b : bytes) (E' : list (nat * bytes)) (Q : list (nat * raw)) : Prop := exists D Q' c',
  c ++ b = wire D ++ c' /\ owing c' E' Q' /\ map snd Q = D ++ map snd Q' /\
  (List.length D + attempts_for Q' <= attempts_for Q)%nat /\ kept Q Q'.
Lemma arrived_nothing : forall c E Q, owing c E Q -> arrived c [] E Q.
Proof. intros c E Q H. exists [], Q, c. rewrite app_nil_r. split; [reflexivity|]. split; [exact H|]. split; [reflexivity|]. split; [cbn [List.length]; lia|apply kept_refl]. Qed.
Lemma arrived_again : forall c b E' Q b' E'', arrived c b E' Q -> (forall c' Q', owing c' E' Q' -> arrived c' b' E'' Q') -> arrived c (b ++ b') E'' Q.
Proof.
  intros c b E' Q b' E'' (D & Q' & c' & A1 & A2 & A3 & A4 & A5) H. destruct (H _ _ A2) as (D2 & Q2 & c2 & B1 & B2 & B3 & B4 & B5).
  exists (D ++ D2), Q2, c2. split; [rewrite app_assoc, A1, wire_app, <- !app_assoc, B1; reflexivity|]. split; [exact B2|].
  split; [rewrite A3, B3; apply app_assoc|]. split; [rewrite app_length; unfold raw in *; lia|]. eapply kept_trans; eauto.
Qed.
(** One segment. *)
Lemma one_segment : forall c b E Q, owing c ((O, b) :: E) Q -> arrived c b E Q.
Proof.
  assert (NEW : forall b E Q, encodes Q ((O, b) :: E) -> arrived [] b E Q).
  { intros b E Q H. inversion H as [|q m c' segs Q' E' R EN]; subst. exists [], ((O, m) :: Q'), b. cbn [app wire flat_map map snd List.length].
    split; [reflexivity|]. split; [now constructor|]. split; [reflexivity|]. split; [lia|apply kept_refl]. }
  intros c b E Q H. inversion H as [E0 Q0 EN|c0 segs m E0 Q0 R EN]; subst; [apply NEW; assumption|].
  destruct segs as [|[k b'] segs].
  - cbn [app] in *. subst E0. destruct (NEW _ _ _ EN) as (D & Q' & c' & A1 & A2 & A3 & A4 & A5).
    destruct R as (_ & R & _). cbn [map List.concat] in R. rewrite app_nil_r in R.
    exists (m :: D), Q', c'. cbn [app] in A1. split; [cbn [wire flat_map]; fold (wire D); rewrite R, A1, app_assoc; reflexivity|]. split; [exact A2|].
    split; [cbn [map snd app]; rewrite A3; reflexivity|]. split; [rewrite attempts_cons; cbn [fst List.length]; unfold raw in *; lia|].
    eapply kept_trans; [apply kept_tail|exact A5].
  - match goal with X : _ = _ |- _ => cbn [app] in X; injection X as -> -> <- end. destruct R as (R1 & R2 & R3 & R4).
    exists [], ((O, m) :: Q0), (c ++ b). cbn [wire flat_map map snd app List.length].
    split; [reflexivity|]. split.
    { constructor; [|exact EN]. split; [rewrite app_length; lia|]. split; [cbn [map snd List.concat] in R2; rewrite <- app_assoc; exact R2|].
      split; [rewrite moments_cons in R3; lia|eapply ends_tail, R4]. }
    split; [reflexivity|]. split; [lia|apply kept_refl].
Qed.
(** All that is due. *)
Lemma all_due : forall E c Q, owing c E Q -> arrived c (List.concat (due_now E)) (due_later E) Q.
Proof.
  induction E as [|[[|k] b] E IH]; intros c Q H.
  - apply arrived_nothing, H.
  - cbn [due_now due_later List.concat]. eapply arrived_again; [apply one_segment, H|]. intros c' Q'. apply IH.
  - apply arrived_nothing, H.
Qed.
Lemma encodes_closer : forall k b E Q, encodes Q ((S k, b) :: E) -> exists m t, Q = (S k, m) :: t /\ encodes ((k, m) :: t) ((k, b) :: E).
Proof. intros k b E Q H. inversion H as [|q m c' segs Q' E' R EN]; subst. exists m, Q'. split; [reflexivity|]. now constructor. Qed.
Lemma say_once : forall E c Q, owing c E Q -> arrived c (List.concat (due_now E)) (closer E) Q.
Proof.
  intros E c Q H. destruct E as [|[[|k] b] E]; [exact (all_due [] c Q H)|exact (all_due ((O, b) :: E) c Q H)|]. cbn [due_now closer List.concat].
  inversion H as [E0 Q0 EN|c0 segs m E0 Q0 R EN]; subst.
  - destruct (encodes_closer _ _ _ _ EN) as (m & t & -> & EN').
    exists [], ((k, m) :: t), []. split; [reflexivity|]. split; [now constructor|]. split; [reflexivity|].
    split; [rewrite !attempts_cons; cbn [fst List.length]; lia|]. apply kept_cons; [lia|apply kept_refl].
  - destruct segs as [|[k' b'] segs].
    + cbn [app] in *. subst E0. destruct (encodes_closer _ _ _ _ EN) as (m' & t & -> & EN').
      exists [], ((O, m) :: (k, m') :: t), c. rewrite app_nil_r. split; [reflexivity|]. split; [exact (ow_part c [] m _ _ R EN')|]. split; [reflexivity|].
      split; [rewrite !attempts_cons; cbn [fst List.length]; lia|]. apply kept_cons; [lia|]. apply kept_cons; [lia|apply kept_refl].
    + match goal with X : _ = _ |- _ => cbn [app] in X; injection X as -> -> <- end. destruct R as (R1 & R2 & R3 & R4).
      exists [], ((O, m) :: Q0), c. rewrite app_nil_r. split; [reflexivity|]. split.
      { apply (ow_part c ((k, b) :: segs)); [|exact EN]. split; [exact R1|]. split; [exact R2|]. rewrite !moments_cons in *. cbn [fst] in *. split; [lia|].
        intros pre x EX. destruct pre as [|y pre]; [injection EX as <- ->; exact (R4 [] (S k, b) eq_refl)|]. injection EX as _ ->.
        exact (R4 ((S k, b) :: pre) x eq_refl). }
      split; [reflexivity|]. split; [cbn [List.length]; lia|apply kept_refl].
Qed.

(** Several things. *)
Lemma say_many : forall n r c Q, owing c (sv_owes r) Q ->
  arrived c (delivered false (server_ticks n r)) (sv_owes (server_then n r)) Q /\
  sv_heard (server_then n r) = sv_heard r /\ sv_greeted (server_then n r) = sv_greeted r.
Proof.
  induction n as [|n IH]; intros r c Q H.
  - split; [apply arrived_nothing, H|auto].
  - cbn [says said server_says fst snd delivered].
    set (r1 := {| sv_heard := sv_heard r; sv_greeted := sv_greeted r; sv_owes := closer (sv_owes r) |}).
    pose proof (say_once _ _ _ H) as S1. split.
    + eapply arrived_again; [exact S1|]. intros c' Q' O. apply (IH r1 c' Q' O).
    + destruct S1 as (D & Q' & c' & _ & O & _). destruct (IH r1 c' Q' O) as (_ & K1 & K2). auto.
Qed.

Lemma ticks_split : forall a n r, (a <= n)%nat -> firstn a (server_ticks n r) = server_ticks a r.
Proof. intros. now apply says_firstn. Qed.

(** The segments of a message come in time. *)
Lemma zeros : forall (segs E : list (nat * bytes)), exists z segs', segs = z ++ segs' /\ (segs <> [] -> fst (hd (O, [] : bytes) segs) = O -> z <> []) /\
  ((segs' <> [] /\ due_now (segs ++ E) = map snd z /\ due_later (segs ++ E) = segs' ++ E /\ moments segs = (List.length z + moments segs')%nat) \/
   (segs' = [] /\ due_now (segs ++ E) = map snd z ++ due_now E)).
Proof.
  induction segs as [|[[|k] b] segs IH]; intros E.
  - exists [], []. split; [reflexivity|]. split; [intros X; contradiction|]. right. auto.
  - destruct (IH E) as (z & segs' & -> & _ & H). exists ((O, b) :: z), segs'. split; [reflexivity|]. split; [discriminate|].
    cbn [app due_now due_later map snd]. destruct H as [(H1 & H2 & H3 & H4)|(H1 & H2)].
    + left. rewrite H2, H3, moments_cons, H4. cbn [fst List.length]. auto.
    + right. rewrite H2. auto.
  - exists [], ((S k, b) :: segs). split; [reflexivity|]. split; [intros _ X; discriminate|]. left. split; [discriminate|]. auto.
Qed.
Lemma in_time : forall n segs E r, sv_owes r = segs ++ E -> (moments segs <= n)%nat ->
  exists more, delivered false (server_ticks n r) = List.concat (map snd segs) ++ more.
Proof.
  induction n as [|n IH]; intros segs E r OW L.
  - destruct segs as [|q segs]; [|rewrite moments_cons in L; lia]. exists []. reflexivity.
  - cbn [says said server_says fst snd delivered]. set (r1 := {| sv_heard := sv_heard r; sv_greeted := sv_greeted r; sv_owes := closer (sv_owes r) |}).
    destruct segs as [|[k b] segs]; [eexists; reflexivity|]. destruct k as [|k].
    + destruct (zeros ((O, b) :: segs) E) as (z & segs' & EZ & NZ & [(H1 & H2 & H3 & H4)|(H1 & H2)]).
      * assert (LZ : (0 < List.length z)%nat) by (destruct z; [exfalso; apply NZ; [discriminate|reflexivity|reflexivity]|cbn [List.length]; lia]).
        destruct (IH segs' E r1) as [more M]; [unfold r1; cbn [sv_owes]; rewrite OW; exact H3|lia|].
        exists more. rewrite OW. rewrite H2, M, EZ, map_app, concat_app, <- app_assoc. reflexivity.
      * rewrite OW, H2, EZ, H1, app_nil_r, concat_app, <- app_assoc. eexists. reflexivity.
    + destruct (IH ((k, b) :: segs) E r1) as [more M]; [unfold r1; cbn [sv_owes]; rewrite OW; reflexivity|rewrite moments_cons in *; cbn [fst] in *; lia|].
      exists more. rewrite OW. cbn [app due_now List.concat]. exact M.
Qed.

(** ** A conversation *)
(** [A] has arrived and is not read yet, [Q] is still to come; some of its first message may be there. *)
Definition talking (x : peer) (r : serving) (A : list raw) (Q : list (nat * raw)) : Prop :=
  (exists c, st_avail (p_stream x) = wire A ++ c /\ owing c (sv_owes r) Q) /\ st_closed (p_stream x) = false /\ st_wsched (p_stream x) = [] /\
  sv_heard r = [] /\ sv_greeted r = true.

(** How many more attempts bring nothing. *)
Definition silence (A : list raw) (Q : list (nat * raw)) : nat := match A, Q with [], (k, _) :: _ => k | _, _ => O end.

(** The first message is read. *)
Lemma first_taken : forall A Q c b E' m M rest, arrived c b E' Q -> A ++ map snd Q = m :: M -> frame (fst m) (snd m) ++ rest = wire A ++ c ++ b ->
  exists A' Q' c', rest = wire A' ++ c' /\ owing c' E' Q' /\ kept Q Q' /\ A ++ map snd Q = m :: A' ++ map snd Q' /\
    (List.length A' + attempts_for Q' < List.length A + attempts_for Q)%nat.
Proof.
  intros A Q c b E' m M rest (D & Q' & c' & A1 & A2 & A3 & A4 & A5) EM ER.
  rewrite A1, app_assoc, <- wire_app in ER. rewrite A3, app_assoc in EM.
  destruct (A ++ D) as [|m' T] eqn:AD.
  - apply app_eq_nil in AD as [-> ->]. cbn [wire flat_map app List.length] in *.
    destruct A2 as [E Q0 EN|c0 segs m0 E Q0 (R1 & R2 & R3 & R4) EN].
    + apply (f_equal (@List.length _)) in ER. rewrite app_length, frame_length in ER. discriminate.
    + cbn [map snd] in EM. injection EM as -> EM. rewrite <- ER in R2.
      assert (Z : rest = [] /\ List.concat (map snd segs) = []).
      { apply (f_equal (@List.length _)) in R2. rewrite !app_length in R2. unfold bytes in *. split; apply length_zero_iff_nil; lia. }
      destruct Z as [-> Z]. apply ends_empty in Z; [|exact R4]. subst segs.
      exists [], Q0, []. split; [reflexivity|]. split; [now constructor|]. split; [eapply kept_trans; [exact A5|apply kept_tail]|].
      split; [rewrite A3; reflexivity|]. rewrite attempts_cons in A4. cbn [List.length fst] in *. unfold raw in *. lia.
  - cbn [app] in EM. injection EM as -> EM. cbn [wire flat_map] in ER. fold (wire T) in ER. rewrite <- app_assoc in ER. apply app_inv_head in ER.
    exists T, Q', c'. split; [exact ER|]. split; [exact A2|]. split; [exact A5|]. split; [rewrite A3, app_assoc, AD; reflexivity|].
    apply (f_equal (@List.length _)) in AD. rewrite app_length in AD. cbn [List.length] in AD. unfold raw in *. lia.
Qed.

Lemma ticks_S : forall n r, server_ticks (S n) r = TData (List.concat (due_now (sv_owes r))) :: server_ticks n (snd (server_says r)).
Proof. reflexivity. Qed.
Lemma delivered_data : forall c l, delivered false (TData c :: l) = c ++ delivered false l.
Proof. reflexivity. Qed.
(** What one attempt to read does to a socket. *)
Definition something_read (x : peer) (r : serving) (A : list raw) (Q : list (nat * raw)) (o : option (bytes * N * N)) (s' : stream) : Prop :=
  let r1 := server_then (S READS - List.length (st_sched s')) r in
  exists A' Q', (exists c, st_avail s' = wire A' ++ c /\ owing c (sv_owes r1) Q') /\ st_closed s' = false /\ sv_heard r1 = [] /\ sv_greeted r1 = true /\
    kept Q Q' /\
    ((o = None /\ A = [] /\ A' = [] /\ ((Q = [] /\ Q' = []) \/ exists k m t, Q = (S k, m) :: t /\ Q' = (k, m) :: t)) \/
     (exists m, o = Some (snd m, fst m, lenN (snd m)) /\ A ++ map snd Q = m :: A' ++ map snd Q' /\
        (List.length A' + attempts_for Q' < List.length A + attempts_for Q)%nat)).
(** The first message is there, at least in part, and the rest comes in time. *)
Lemma attempt_there : forall x r A Q c m M more, Forall (fun m => short_body (snd m)) (A ++ map snd Q) ->
  st_avail (p_stream x) = wire A ++ c -> owing c (sv_owes r) Q -> st_closed (p_stream x) = false -> sv_heard r = [] -> sv_greeted r = true ->
  A ++ map snd Q = m :: M -> (5 <= List.length (wire A ++ c))%nat ->
  (wire A ++ c) ++ delivered false (server_ticks 43 r) = frame (fst m) (snd m) ++ more ->
  exists o s', read_stream (given (p_stream x) (server_ticks (S READS) r)) = (o, s') /\ something_read x r A Q o s'.
Proof.
  intros x r A Q c m M more SH A1 OW A2 A4 A5 EM L5 EF.
  destruct (read_partly (p_stream x) (server_ticks (S READS) r) (fst m) (snd m) (wire A ++ c) more)
    as (pre & suf & s' & EL & RD & SC & (k & K1 & K2) & AV & CL).
  - rewrite EM in SH. apply Forall_inv in SH. exact SH.
  - apply ticks_data.
  - rewrite says_length. lia.
  - exact A2.
  - exact A1.
  - exact L5.
  - rewrite ticks_split by (unfold READS; lia). exact EF.
  - exists (Some (snd m, fst m, lenN (snd m))), s'. split; [exact RD|].
    rewrite says_length in K1.
    assert (LEN : (S READS - List.length (st_sched s') = S k)%nat).
    { apply (f_equal (@List.length _)) in EL. rewrite app_length, K2, firstn_length_le in EL by (rewrite says_length; lia).
      rewrite says_length in EL. rewrite SC. lia. }
    unfold something_read. rewrite LEN. rewrite K2, ticks_split, <- app_assoc in AV by lia.
    destruct (say_many (S k) r c Q OW) as (AR & J6 & J7).
    destruct (first_taken _ _ _ _ _ _ _ _ AR EM AV) as (A' & Q' & c' & B1 & B2 & B3 & B4 & B5).
    exists A', Q'. split; [eauto|]. split; [exact CL|]. split; [congruence|]. split; [congruence|]. split; [exact B3|]. right. exists m. auto.
Qed.
(** It begins to arrive now. *)
Lemma attempt_now : forall x r m Q, Forall (fun m => short_body (snd m)) (m :: map snd Q) ->
  st_avail (p_stream x) = [] -> encodes ((O, m) :: Q) (sv_owes r) -> st_closed (p_stream x) = false -> sv_heard r = [] -> sv_greeted r = true ->
  exists o s', read_stream (given (p_stream x) (server_ticks (S READS) r)) = (o, s') /\ something_read x r [] ((O, m) :: Q) o s'.
Proof.
  intros x r m Q SH A1 EN A2 A4 A5. pose proof (ow_whole _ _ EN) as OW.
  inversion EN as [|q m' c0 segs Q' E' (R1 & R2 & R3 & R4) EN' X1 X2]. subst q m' Q'. clear EN.
  set (r0 := snd (server_says r)).
  set (got := List.concat (due_now (sv_owes r))) in *.
  assert (TK : server_ticks (S READS) r = TData got :: server_ticks READS r0) by apply ticks_S.
  assert (OW0 : sv_owes r0 = due_later (segs ++ E')) by (unfold r0; cbn [server_says snd sv_owes]; rewrite <- X2; reflexivity).
  assert (GOT : got = c0 ++ List.concat (due_now (segs ++ E'))) by (unfold got; rewrite <- X2; reflexivity).
  assert (COMES : exists more, got ++ delivered false (server_ticks 42 r0) = frame (fst m) (snd m) ++ more).
  { destruct (zeros segs E') as (z & segs' & EZ & _ & [(Z1 & Z2 & Z3 & Z4)|(Z1 & Z2)]).
    - destruct (in_time 42 segs' E' r0) as [more MO]; [rewrite OW0; exact Z3|lia|].
      exists more. rewrite GOT, Z2, MO, <- R2, EZ, map_app, concat_app, <- !app_assoc. reflexivity.
    - subst segs'. rewrite app_nil_r in EZ. subst z. exists (List.concat (due_now E') ++ delivered false (server_ticks 42 r0)).
      rewrite GOT, Z2, concat_app, <- R2, <- !app_assoc. reflexivity. }
  destruct COMES as [more COMES].
  destruct (read_partly (set_avail (p_stream x) got) (TData [] :: server_ticks READS r0) (fst m) (snd m) got more)
    as (pre & suf & s' & EL & RD & SC & (k & K1 & K2) & AV & CL).
  { apply Forall_inv in SH. exact SH. }
  { constructor; [exact I|apply ticks_data]. }
  { cbn [List.length]. rewrite says_length. lia. }
  { exact A2. }
  { reflexivity. }
  { rewrite GOT, app_length. lia. }
  { rewrite (firstn_cons 42), delivered_data, ticks_split by (unfold READS; lia). exact COMES. }
  exists (Some (snd m, fst m, lenN (snd m))), s'.
  split; [rewrite TK, (read_empty _ _ _ A1 A2); exact RD|].
  assert (LEN : (S READS - List.length (st_sched s') = S k)%nat).
  { apply (f_equal (@List.length _)) in EL. rewrite app_length, K2, firstn_length_le in EL by (cbn [List.length] in *; rewrite says_length in *; lia).
    cbn [List.length] in EL. rewrite says_length in EL. rewrite SC. lia. }
  unfold something_read. rewrite LEN. cbn [firstn] in K2. rewrite K2, ticks_split in AV by (cbn [List.length] in K1; rewrite says_length in K1; lia).
  destruct (say_many (S k) r [] _ OW) as (AR & J6 & J7).
  destruct (first_taken [] ((O, m) :: Q) [] _ _ m (map snd Q) (st_avail s') AR) as (A' & Q' & c' & B1 & B2 & B3 & B4 & B5); [reflexivity| |].
  { rewrite delivered_data in AV. rewrite ticks_S, delivered_data. exact AV. }
  exists A', Q'. split; [eauto|]. split; [exact CL|]. split; [congruence|]. split; [congruence|]. split; [exact B3|]. right. exists m. auto.
Qed.
Lemma attempt_silent : forall x r, st_avail (p_stream x) = [] -> st_closed (p_stream x) = false -> due_now (sv_owes r) = [] ->
  exists s', read_stream (given (p_stream x) (server_ticks (S READS) r)) = (None, s') /\ st_avail s' = [] /\ st_closed s' = false /\
    (S READS - List.length (st_sched s') = 1)%nat.
Proof.
  intros x r A1 A2 D. exists (given (p_stream x) (server_ticks READS (snd (server_says r)))). split; [|split; [exact A1|split; [exact A2|]]].
  - rewrite ticks_S, D. apply read_silent; assumption.
  - cbn [given st_sched]. rewrite says_length. lia.
Qed.
Lemma socket_attempt : forall x r A Q, talking x r A Q -> Forall (fun m => short_body (snd m)) (A ++ map snd Q) ->
  exists o s', read_stream (given (p_stream x) (server_ticks (S READS) r)) = (o, s') /\ something_read x r A Q o s'.
Proof.
  intros x r A Q ((c & A1 & OW) & A2 & A3 & A4 & A5) SH.
  destruct A as [|m A].
  - inversion OW as [E0 Q0 EN EC EE EQ|c0 segs m E0 Q0 (R1 & R2 & R3 & R4) EN EC EE EQ].
    + subst c E0 Q0. cbn [wire flat_map app] in A1. destruct Q as [|[[|k] m] Q].
      * assert (EO : sv_owes r = []) by (inversion EN; reflexivity).
        destruct (attempt_silent x r A1 A2) as (s' & RD & S1 & S2 & S3); [rewrite EO; reflexivity|].
        exists None, s'. split; [exact RD|]. unfold something_read. rewrite S3. exists [], []. cbn [said server_says snd sv_heard sv_greeted sv_owes].
        rewrite EO. split; [exists []; split; [exact S1|constructor; constructor]|]. split; [exact S2|]. split; [exact A4|]. split; [exact A5|]. split; [apply kept_refl|]. left. auto 10.
      * apply attempt_now; assumption.
      * inversion EN as [|q m' c0 segs Q' E' R EN' X1 X2]. subst q m' Q'.
        destruct (attempt_silent x r A1 A2) as (s' & RD & S1 & S2 & S3); [rewrite <- X2; reflexivity|].
        exists None, s'. split; [exact RD|]. unfold something_read. rewrite S3. exists [], ((k, m) :: Q). cbn [said server_says snd sv_heard sv_greeted sv_owes].
        rewrite <- X2. cbn [closer].
        split; [exists []; split; [exact S1|constructor; now constructor]|]. split; [exact S2|]. split; [exact A4|]. split; [exact A5|].
        split; [apply kept_cons; [lia|apply kept_refl]|].
        left. split; [reflexivity|]. split; [reflexivity|]. split; [reflexivity|]. right. eauto.
    + subst c0 Q. destruct (in_time 43 segs E0 r) as [more MO]; [symmetry; exact EE|lia|].
      apply (attempt_there x r [] _ c m (map snd Q0) more); auto. cbn [wire flat_map app]. rewrite MO, app_assoc, R2. reflexivity.
  - apply (attempt_there x r (m :: A) Q c m (A ++ map snd Q) (wire A ++ c ++ delivered false (server_ticks 43 r))); auto.
    + cbn [wire flat_map]. rewrite !app_length, frame_length. lia.
    + cbn [wire flat_map]. fold (wire A). now rewrite <- !app_assoc.
Qed.

Lemma front_back : forall (a b : bytes) n, List.length a = n -> firstn n (a ++ b) = a /\ skipn n (a ++ b) = b.
Proof.
  intros a b n <-. rewrite firstn_app, skipn_app, firstn_all, skipn_all, Nat.sub_diag. cbn [firstn skipn]. now rewrite app_nil_r.
Qed.

Section Serving.
  Variable size : N -> hmap N -> Prop.
  Hypothesis size_nonzero : forall n e, size n e -> n <> 0%N.
  Variable v : server.
  Hypothesis cuts_ok : forall m, gentle (sd_cuts v m).
  Notation hears := (server_hears v).

  Definition fine (m : raw) : Prop := well_behaved size m /\ short_body (snd m).

  (** One attempt to read in a conversation. *)
  Lemma live_attempt : forall x r A Q, talking x r A Q -> (forall m, In m (A ++ map snd Q) -> fine m) ->
    (p_metadata_size x = 0%N \/ sized size x) ->
    exists om x1 r1, read_message_l serving server_says x r = Ret (om, x1, r1) /\
    let x2 := match om with Some m => apply_message x1 m | None => x1 end in
    exists A' Q', talking x2 r1 A' Q' /\ (p_metadata_size x2 = 0%N \/ sized size x2) /\ (sized size x -> sized size x2) /\
      (p_choked x = false -> p_choked x2 = false) /\
      kept Q Q' /\
      ((om = None /\ A = [] /\ A' = [] /\ ((Q = [] /\ Q' = []) \/ exists k m t, Q = (S k, m) :: t /\ Q' = (k, m) :: t)) \/
       (exists m w, om = Some m /\ parsed w m /\ A ++ map snd Q = w :: A' ++ map snd Q' /\
          (List.length A' + attempts_for Q' < List.length A + attempts_for Q)%nat /\
          (fst w = 1%N -> p_choked x2 = false) /\ (forall m' n e, parsed w m' -> states_size m' = Some (n, e) -> sized size x2))).
  Proof.
    intros x r A Q T F SZ.
    destruct (socket_attempt x r A Q T) as (o & s' & RD & A' & Q' & (c & AV & OW) & CL & HE & GR & BB & CASES).
    { apply Forall_forall. intros m I. apply F in I. apply I. }
    set (ticks := server_ticks (S READS) r) in *.
    set (s := given (p_stream x) ticks) in *.
    set (w := match o with Some (body, id, _) => Some (id, body) | None => None end).
    destruct (behaved_attempt size (facing x ticks) s w []) as (om & x1 & RM & RL & _ & WS & _ & B1 & B2 & B3 & B4 & B5 & B6 & B7).
    - exists (st_sent s), (st_wsched s). rewrite out_self. reflexivity.
    - unfold delivers. cbn [List.length read_messages]. rewrite RD. cbn [fst map]. unfold w. destruct o as [[[b i] l]|]; reflexivity.
    - intros m EM. destruct CASES as [(-> & _)|(m' & -> & EQ & _)]; unfold w in EM; [discriminate|].
      injection EM as <-. destruct (F m') as [W _]; [rewrite EQ; left; reflexivity|]. destruct m'; exact W.
    - exact SZ.
    - cbn zeta in *. exists om, (facing x1 []), (server_then (S READS - List.length (st_sched (p_stream x1))) r).
      split; [unfold read_message_l; fold ticks; rewrite RM; reflexivity|].
      set (x2 := match om with Some m => apply_message x1 m | None => x1 end) in *.
      assert (X2 : match om with Some m => apply_message (facing x1 []) m | None => facing x1 [] end = facing x2 [])
        by (unfold x2; destruct om; [apply apply_facing|reflexivity]).
      rewrite X2. rewrite RD in RL. cbn [snd] in RL. destruct RL as (so & sw & RL).
      assert (ST : p_stream x1 = p_stream x2) by (unfold x2; destruct om as [m|]; [symmetry; apply apply_message_fixed|reflexivity]).
      rewrite ST, RL. cbn [out st_sched]. exists A', Q'.
      destruct T as (_ & _ & T3 & _).
      split.
      { unfold talking, facing. cbn [with_stream p_stream given st_avail st_closed st_wsched]. rewrite WS, RL. cbn [out st_avail st_closed]. split; [exists c; auto|auto]. }
      split; [exact B1|]. split; [exact B2|]. split; [exact B3|]. split; [exact BB|].
      destruct CASES as [(E & C1 & C2 & C3)|(m & E & EQ & LT)].
      + left. split; [apply B6; unfold w; rewrite E; reflexivity|]. auto.
      + right. assert (W : w = Some m) by (unfold w; rewrite E; destruct m; reflexivity).
        destruct (B7 _ W) as (m0 & E0 & P0). exists m0, m. split; [exact E0|]. split; [exact P0|]. split; [exact EQ|]. split; [exact LT|].
        split; [intros E1; apply (B4 (snd m)); rewrite W; clear - E1; destruct m as [a b]; cbn [fst snd] in *; now rewrite E1|]. intros m' n e P S. eapply B5; eauto.
  Qed.

  Definition has_unchoke (l : list raw) : Prop := exists body, In (1%N, body) l.
  Definition has_size (l : list raw) : Prop := exists w m n e, In w l /\ parsed w m /\ states_size m = Some (n, e).

  (** The end of the initialisation. *)
  Lemma live_rounds_ok : forall n x r A Q, talking x r A Q -> (forall m, In m (A ++ map snd Q) -> fine m) ->
    (p_metadata_size x = 0%N \/ sized size x) -> (List.length A + attempts_for Q <= n)%nat -> (0 < n)%nat -> ~ ready x ->
    (p_choked x = false \/ has_unchoke (A ++ map snd Q)) -> (sized size x \/ has_size (A ++ map snd Q)) ->
    exists y r1 A' Q', init_rounds_l serving server_says n x r = Ret (Ok tt, y, r1) /\ talking y r1 A' Q' /\ p_choked y = false /\ sized size y /\
      kept Q Q' /\
      (exists pre, A ++ map snd Q = pre ++ A' ++ map snd Q') /\ (List.length A' + attempts_for Q' <= List.length A + attempts_for Q)%nat.
  Proof.
    induction n as [|n IH]; intros x r A Q T F SZ LE N0 NR U S; [lia|]. cbn [init_rounds_l]. unfold read_and_apply_l.
    destruct (live_attempt x r A Q T F SZ) as (om & x1 & r1 & RM & A' & Q' & T' & B1 & B2 & B3 & BB & CASES). rewrite RM. cbn [obind].
    set (x2 := match om with Some m => apply_message x1 m | None => x1 end) in *.
    assert (MORE : (p_choked x2 = false \/ has_unchoke (A' ++ map snd Q')) /\ (sized size x2 \/ has_size (A' ++ map snd Q')) /\
      (exists pre, A ++ map snd Q = pre ++ A' ++ map snd Q') /\
      ((A ++ map snd Q <> []) -> List.length A' + attempts_for Q' < List.length A + attempts_for Q)%nat /\ (List.length A' + attempts_for Q' <= List.length A + attempts_for Q)%nat).
    { destruct CASES as [(_ & -> & -> & [[-> ->]|(k & m & t & -> & ->)])|(m & w & _ & P & EQ & LT & K1 & K2)].
      - split; [destruct U as [U|[b []]]; auto|]. split; [destruct S as [S|(w & m & a & e & [] & _)]; auto|]. split; [exists []; reflexivity|]. split; [intros X; exfalso; apply X; reflexivity|]. lia.
      - split; [destruct U; auto|]. split; [destruct S; auto|]. split; [exists []; reflexivity|]. rewrite !attempts_cons. cbn [fst List.length]. split; lia.
      - rewrite EQ in *. split; [|split; [|split; [exists [w]; reflexivity|split; [intros _; exact LT|lia]]]].
        + destruct U as [U|[b [EW|U]]]; [auto|left; apply K1; rewrite EW; reflexivity|right; exists b; exact U].
        + destruct S as [S|(w' & m' & a & e & [EW|I] & P' & S)]; [left; apply B2, S|left; rewrite <- EW in P'; exact (K2 _ _ _ P' S)|right; exists w', m', a, e; split; [exact I|split; [exact P'|exact S]]]. }
    destruct MORE as (U' & S' & [pre E'] & LT & LE').
    destruct (is_ready x2) eqn:RD.
    - apply andb_true_iff in RD as [RD1 RD2]. apply negb_true_iff in RD1, RD2. apply N.eqb_neq in RD1.
      exists x2, r1, A', Q'. split; [reflexivity|]. split; [exact T'|]. split; [exact RD2|]. split; [destruct B1; [contradiction|assumption]|]. split; [exact BB|].
      split; [exists pre; exact E'|exact LE'].
    - assert (NR' : ~ ready x2).
      { intros [R1 R2]. unfold is_ready in RD. rewrite R1 in RD. cbn [negb] in RD. rewrite andb_true_r in RD. apply negb_false_iff, N.eqb_eq in RD. contradiction. }
      assert (NE : A' ++ map snd Q' <> []).
      { intros X. rewrite X in *. apply NR'. destruct U' as [U'|[b []]]. destruct S' as [S'|(w & m & a & e & [] & _)]. split; [exact U'|]. eapply size_nonzero, S'. }
      assert (NE' : A ++ map snd Q <> []) by (rewrite E'; intros X; apply app_eq_nil in X as [_ X]; contradiction).
      specialize (LT NE').
      assert (P1 : (0 < List.length A' + attempts_for Q')%nat).
      { destruct A' as [|a A']; [|cbn [List.length]; lia]. destruct Q' as [|q Q']; [contradiction|]. rewrite attempts_cons. lia. }
      destruct (IH x2 r1 A' Q' T') as (y & r2 & A2 & Q2 & H1 & H2 & H3 & H4 & H5 & [pre2 H6] & H7); auto; [|lia|lia|].
      + intros m I. apply F. rewrite E'. apply in_or_app. auto.
      + exists y, r2, A2, Q2. split; [exact H1|]. split; [exact H2|]. split; [exact H3|]. split; [exact H4|]. split; [eapply kept_trans; eauto|].
        split; [exists (pre ++ pre2); rewrite E', H6; apply app_assoc|lia].
  Qed.

  (** ** What the server understands *)
  Lemma understand_done : forall f o, understand f v {| sv_heard := []; sv_greeted := true; sv_owes := o |} = {| sv_heard := []; sv_greeted := true; sv_owes := o |}.
  Proof. intros [|f] o; reflexivity. Qed.
  Lemma understands_frame : forall r id body, sv_heard r = [] -> sv_greeted r = true -> (lenN body + 1 < 2 ^ 32)%N ->
    hears r (frame id body) = {| sv_heard := []; sv_greeted := true; sv_owes := sv_owes r ++ encoded v (answer v (id, body)) |}.
  Proof.
    intros r id body H G L. unfold server_hears. rewrite H, G. cbn [app].
    assert (LB : List.length (big_endian 4 (N.of_nat (1 + List.length body))) = 4%nat) by apply be_length.
    assert (LF : List.length (frame id body) = (4 + S (List.length body))%nat) by (unfold frame; rewrite !app_length, LB; reflexivity).
    destruct (front_back (big_endian 4 (N.of_nat (1 + List.length body))) ([id] ++ body) 4 LB) as [F4 S4].
    fold (frame id body) in F4, S4. cbn [app] in S4.
    assert (NV : N.to_nat (big_endian_value (firstn 4 (frame id body))) = S (List.length body)).
    { rewrite F4, be_value by (unfold lenN in L; change (256 ^ N.of_nat 4)%N with (2 ^ 32)%N; lia). lia. }
    rewrite LF. cbn [understand sv_heard sv_greeted sv_owes]. rewrite NV, LF.
    rewrite (proj2 (Nat.leb_le 4 (4 + S (List.length body)))) by lia. rewrite Nat.leb_refl. cbn [andb].
    rewrite S4.
    assert (SK : skipn (4 + S (List.length body)) (frame id body) = []) by (apply skipn_all2; lia).
    rewrite SK. change (firstn (S (List.length body)) (id :: body)) with (id :: firstn (List.length body) body). rewrite firstn_all.
    apply understand_done.
  Qed.

  Lemma understands_handshake : forall pid, List.length (sd_ih v) = 20%nat -> List.length pid = 20%nat ->
    hears newly (handshake_layout (sd_ih v) pid) =
    {| sv_heard := []; sv_greeted := true; sv_owes := (O, handshake_layout (sd_ih v) (sd_pid v)) :: encoded v (sd_hello v) |}.
  Proof.
    intros pid L1 L2. destruct (layout_parts (sd_ih v) pid L1 L2) as [P1 [_ P3]]. unfold server_hears, newly. cbn [sv_heard sv_greeted sv_owes app].
    rewrite P1. generalize 68%nat at 1. intros f. cbn [understand sv_heard sv_greeted sv_owes]. rewrite P1, P3, bytes_eqb_refl. cbn [Nat.leb andb].
    rewrite (skipn_all2 (n := 68)) by (rewrite P1; lia). rewrite understand_done. reflexivity.
  Qed.

  (** ** The beginning of a conversation *)
  Lemma greeting_attempt : forall x r H, (forall m, gentle (sd_cuts v m)) -> st_avail (p_stream x) = [] -> st_closed (p_stream x) = false ->
    sv_heard r = [] -> sv_greeted r = true -> List.length (sd_ih v) = 20%nat -> List.length (sd_pid v) = 20%nat ->
    let h := handshake_layout (sd_ih v) (sd_pid v) in sv_owes r = (O, h) :: encoded v H ->
    exists s', read_stream (given (p_stream x) (server_ticks (S READS) r)) = (Some (h, 19%N, 68%N), s') /\
    let r1 := server_then (S READS - List.length (st_sched s')) r in
    exists A' Q', (exists c, st_avail s' = wire A' ++ c /\ owing c (sv_owes r1) Q') /\ st_closed s' = false /\ sv_heard r1 = [] /\ sv_greeted r1 = true /\
      map snd H = A' ++ map snd Q' /\ (List.length A' + attempts_for Q' <= attempts_for H)%nat /\ kept H Q'.
  Proof.
    intros x r H GE A1 A2 A4 A5 L1 L2 h A6.
    pose proof (all_due _ _ _ (ow_whole _ _ (encodes_encoded v H GE))) as AR.
    set (got := List.concat (due_now (encoded v H))) in *.
    set (r0 := snd (server_says r)).
    assert (R0 : sv_owes r0 = due_later (encoded v H) /\ sv_heard r0 = [] /\ sv_greeted r0 = true).
    { unfold r0. cbn [server_says snd sv_owes sv_heard sv_greeted]. rewrite A6. cbn [closer due_later]. auto. }
    destruct R0 as (R1 & R2 & R3).
    assert (TK : server_ticks (S READS) r = TData (h ++ got) :: server_ticks READS r0).
    { rewrite ticks_S, A6. reflexivity. }
    destruct (read_front (set_avail (p_stream x) (h ++ got)) (TData [] :: server_ticks READS r0) h (h, 19%N, 68%N) got)
      as (pre & suf & s' & EL & RD & SC & (k & K1 & K2) & AV & CL).
    - apply handshake_reads; assumption.
    - constructor; [exact I|apply ticks_data].
    - cbn [List.length]. rewrite says_length. lia.
    - exact A2.
    - reflexivity.
    - exists s'. split; [rewrite TK, (read_empty _ _ _ A1 A2); exact RD|].
      assert (LEN : (S READS - List.length (st_sched s') = S k)%nat).
      { apply (f_equal (@List.length _)) in EL. rewrite app_length, K2, firstn_length_le in EL by (cbn [List.length] in *; rewrite says_length in *; lia).
        cbn [List.length] in EL. rewrite says_length in EL. rewrite SC. lia. }
      rewrite LEN. cbn [firstn] in K2. rewrite K2, ticks_split in AV by (cbn [List.length] in K1; rewrite says_length in K1; lia).
      rewrite delivered_data in AV. cbn [app] in AV.
      assert (AR2 : arrived [] (got ++ delivered false (server_ticks k r0)) (sv_owes (server_then k r0)) H).
      { eapply arrived_again; [exact AR|]. rewrite <- R1. intros c' Q' O. apply (say_many k r0 c' Q' O). }
      assert (J : sv_heard (server_then k r0) = sv_heard r0 /\ sv_greeted (server_then k r0) = sv_greeted r0).
      { destruct AR as (D & Q' & c' & _ & O & _). rewrite <- R1 in O. apply (say_many k r0 c' Q' O). }
      destruct J as [J6 J7]. destruct AR2 as (D & Q' & c' & B1 & B2 & B3 & B4 & B5).
      change (server_then (S k) r) with (server_then k r0). exists D, Q'.
      split; [exists c'; split; [rewrite AV; exact B1|exact B2]|]. split; [exact CL|]. split; [congruence|]. split; [congruence|].
      split; [exact B3|]. split; [exact B4|exact B5].
  Qed.

  Lemma told_sent : forall x b r, told serving hears x (after_sending x b) r = hears r b.
  Proof.
    intros x b r. unfold told. cbn [after_sending with_stream p_stream st_sent]. rewrite skipn_app, skipn_all, Nat.sub_diag. reflexivity.
  Qed.

  Lemma live_init_ok : forall ws pid, ws = [] -> welcoming size v -> List.length (sd_ih v) = 20%nat -> List.length pid = 20%nat ->
    exists y r A Q, init_peer_l serving hears server_says (peer_new pid (fresh ws) (sd_ih v)) newly = Ret (Ok tt, y, r) /\
      talking y r A Q /\ p_choked y = false /\ sized size y /\ Forall (fun q => fst q <= 9)%nat Q /\
      (exists pre, map snd (opening v) = pre ++ A ++ map snd Q) /\ (List.length A + attempts_for Q <= 10)%nat.
  Proof.
    intros ws pid -> [WP WS WU WT WB WA WC] L1 L2. unfold init_peer_l. unfold opening in WS. cbn [peer_new p_info_hash p_id].
    fold (peer_new pid (fresh []) (sd_ih v)). set (x := peer_new pid (fresh []) (sd_ih v)).
    rewrite (send_ok x) by reflexivity. destruct (c14_new (sd_ih v) pid) as [HL _]. rewrite HL. cbv zeta. rewrite told_sent, understands_handshake by assumption.
    set (x0 := after_sending x (handshake_layout (sd_ih v) pid)). set (h := handshake_layout (sd_ih v) (sd_pid v)).
    set (r0 := {| sv_heard := []; sv_greeted := true; sv_owes := (O, h) :: encoded v (sd_hello v) |}).
    destruct (greeting_attempt x0 r0 (sd_hello v)) as (s1 & RD & A1 & Q1 & (c1 & B1 & B5) & B2 & B3 & B4 & B6 & B7 & B8); try reflexivity; try assumption.
    fold h in RD. cbv zeta in B3, B4, B5.
    set (ticks := server_ticks (S READS) r0) in *.
    destruct (layout_parts (sd_ih v) (sd_pid v) L1 WP) as (P1 & P2 & P3). fold h in P1, P2, P3.
    destruct (c14_parse h ltac:(lia)) as (hm & EH & IH & _).
    set (m := {| msg_id := 19%N; msg_length := 68; msg_content := CHandshake hm |}).
    assert (NR : new_raw h 68 19 = Ret (Ok m)) by (unfold new_raw; cbn [N.eqb Pos.eqb orb]; rewrite EH; reflexivity).
    destruct (attempt (facing x0 ticks) (given (p_stream x0) ticks) (Some (h, 19%N, 68%N)) (Some m)) as (x1 & RM & W1 & RL1 & WS1).
    { exists (st_sent (p_stream x0)), []. reflexivity. }
    { rewrite RD. reflexivity. }
    { exact NR. }
    rewrite RD in RL1. cbn [snd] in RL1. destruct RL1 as (so & sw & RL1). cbn [facing with_stream p_stream given st_wsched] in WS1.
    assert (RM' : read_message_l serving server_says x0 r0 = Ret (Some m, facing x1 [], server_then (S READS - List.length (st_sched s1)) r0)).
    { unfold read_message_l. fold ticks. rewrite RM. cbn [obind]. rewrite RL1. reflexivity. }
    unfold read_and_apply_l. rewrite RM'. cbn [obind]. set (r1 := server_then (S READS - List.length (st_sched s1)) r0) in *.
    rewrite apply_facing. set (x2 := apply_message x1 m).
    assert (P : parsed (19%N, h) m) by (exists 68%N; exact NR).
    destruct (apply_fields (19%N, h) m x1 P) as (AC & _ & AA & AS & AST & _ & _). fold x2 in AC, AA, AS, AST. cbn [fst snd] in AA.
    assert (X1 : p_info_hash x1 = sd_ih v /\ p_choked x1 = true /\ p_metadata_size x1 = 0%N) by (rewrite W1; repeat split; reflexivity).
    destruct X1 as (X1 & X2 & X3).
    assert (ACT : is_active (facing x2 []) = true).
    { change (is_active (facing x2 [])) with (is_active x2). unfold is_active. rewrite AA. unfold handshake_id. cbn [fst N.eqb Pos.eqb]. rewrite X1, P3. apply bytes_eqb_refl. }
    rewrite ACT. cbn [negb].
    set (z := facing x2 []).
    assert (WZ : st_wsched (p_stream z) = []) by (unfold z, facing; cbn [with_stream p_stream given st_wsched]; rewrite AST; exact WS1).
    rewrite (send_ok z) by exact WZ. rewrite c16_interested, told_sent.
    rewrite understands_frame by (try assumption; reflexivity).
    unfold peer_send_metadata_handshake, send_metadata_handshake_request, write_all.
    set (z1 := after_sending z (frame 2 [])).
    assert (WZ1 : st_wsched (p_stream z1) = []) by exact WZ. rewrite WZ1. cbn [tl].
    match goal with |- context [told serving hears z1 ?y _] => assert (Z : y = after_sending z1 metadata_handshake_bytes) end.
    { unfold after_sending at 1. rewrite WZ1. reflexivity. }
    rewrite Z. clear Z. rewrite told_sent. set (z2 := after_sending z1 metadata_handshake_bytes). cbn [negb].
    assert (MH : metadata_handshake_bytes = frame 20 (0%N :: skipn 6 metadata_handshake_bytes)) by (vm_compute; reflexivity).
    rewrite MH, understands_frame by (try reflexivity; vm_compute; reflexivity). rewrite <- MH || idtac.
    cbn [sv_owes answer]. 
    match goal with |- context [init_rounds_l _ _ 10 z2 ?r] => set (r3 := r) end.
    assert (TK : talking z2 r3 A1 (Q1 ++ sd_interested v ++ sd_extended v)).
    { unfold talking. split; [|split; [|split; [exact WZ1|split; reflexivity]]].
      - exists c1. split; [change (st_avail (p_stream z2)) with (st_avail (p_stream x2)); rewrite AST, RL1; exact B1|].
        unfold r3. cbn [sv_owes]. rewrite <- app_assoc. apply owing_app; [exact B5|]. apply encodes_app; apply encodes_encoded; exact WC.
      - change (st_closed (p_stream z2)) with (st_closed (p_stream x2)). rewrite AST, RL1. exact B2. }
    assert (ALL : A1 ++ map snd (Q1 ++ sd_interested v ++ sd_extended v) = map snd (opening v))
      by (unfold opening; rewrite !map_app, B6, <- !app_assoc; reflexivity).
    assert (COST : (List.length A1 + attempts_for (Q1 ++ sd_interested v ++ sd_extended v) <= 10)%nat).
    { etransitivity; [|exact WS]. unfold attempts_for in *. rewrite !map_app, !list_sum_app. rewrite !map_app, !list_sum_app in WS. unfold raw in *. lia. }
    assert (IN : forall q r, In (q, r) (sd_hello v ++ sd_interested v ++ sd_extended v) -> In r (A1 ++ map snd (Q1 ++ sd_interested v ++ sd_extended v)))
      by (intros q w I; rewrite ALL; exact (in_map snd _ _ I)).
    destruct (live_rounds_ok 10 z2 r3 A1 (Q1 ++ sd_interested v ++ sd_extended v) TK) as (y & r4 & A2 & Q2 & H1 & H2 & H3 & H4 & H5 & (pre & H6) & H7).
    - intros w I. rewrite ALL in I. apply in_map_iff in I as ((q & w') & <- & I). apply (WB q w' I).
    - left. change (p_metadata_size z2) with (p_metadata_size x2). change (p_metadata_size x2) with (p_metadata_size x1). exact X3.
    - exact COST.
    - lia.
    - intros [R1 _]. change (p_choked z2) with (p_choked x2) in R1. rewrite AC in R1. cbn in R1. congruence.
    - right. destruct WU as (q & body & I). exists body. eapply IN, I.
    - right. destruct WT as (q & w & m' & n & e & I & PW & SW). exists w, m', n, e. split; [eapply IN, I|auto].
    - exists y, r4, A2, Q2. split; [exact H1|]. split; [exact H2|]. split; [exact H3|]. split; [exact H4|].
      split.
      { apply H5. apply Forall_forall. intros (q & w) I. cbn [fst].
        assert (LEQ : (S q <= attempts_for (Q1 ++ sd_interested v ++ sd_extended v))%nat).
        { clear - I. induction (Q1 ++ sd_interested v ++ sd_extended v) as [|a l IHl]; [destruct I|]. rewrite attempts_cons. destruct I as [->|I]; [cbn [fst]; lia|specialize (IHl I); lia]. }
        lia. }
      split; [exists pre; rewrite <- ALL; exact H6|lia].
  Qed.

  (** ** The exchange of blocks *)
  Lemma hears_nothing : forall r, sv_heard r = [] -> sv_greeted r = true -> hears r [] = r.
  Proof.
    intros [h g o] H G. cbn in H, G. subst. reflexivity.
  Qed.
  Lemma told_nothing : forall x r A Q, talking x r A Q -> told serving hears x x r = r.
  Proof.
    intros x r A Q (_ & _ & _ & H & G). unfold told. rewrite skipn_all. now apply hears_nothing.
  Qed.
  Lemma talking_more : forall x r A Q b l, talking x r A Q ->
    (forall r, sv_heard r = [] -> sv_greeted r = true -> hears r b = {| sv_heard := []; sv_greeted := true; sv_owes := sv_owes r ++ encoded v l |}) ->
    talking (after_sending x b) (told serving hears x (after_sending x b) r) A (Q ++ l).
  Proof.
    intros x r A Q b l ((c & T1 & T6) & T2 & T3 & T4 & T5) HB. rewrite told_sent, HB by assumption. unfold talking.
    cbn [after_sending with_stream p_stream st_avail st_closed st_wsched sv_heard sv_greeted sv_owes].
    split; [exists c; split; [exact T1|apply owing_app; [exact T6|apply encodes_encoded, cuts_ok]]|auto].
  Qed.
  Lemma silence_le : forall A Q B, Forall (fun q => fst q <= B)%nat Q -> (silence A Q <= B)%nat.
  Proof. intros [|a A] [|[k m] Q] B F; cbn [silence]; try lia. apply Forall_inv in F. exact F. Qed.

  Variable filter : message -> bool.
  Variable next : peer -> N -> outcome peer.
  Variables cap good : N.
  Hypothesis good_le : (good <= cap)%N.
  Variable blk : N -> raw.
  Variable data : N -> bytes.
  Variable delay : N -> nat.
  Hypothesis delay_ok : forall n, (delay n <= 9)%nat.
  Hypothesis next_ok : forall x n, st_wsched (p_stream x) = [] -> sized size x -> (n < good)%N -> exists b, next x n = Ret (after_sending x b) /\
    forall r, sv_heard r = [] -> sv_greeted r = true ->
      hears r b = {| sv_heard := []; sv_greeted := true; sv_owes := sv_owes r ++ encoded v [(delay n, blk n)] |}.
  (** Blocks from [good] on are not sent. *)
  Hypothesis next_none : forall x, st_wsched (p_stream x) = [] -> sized size x -> (good < cap)%N -> exists b, next x good = Ret (after_sending x b) /\
    forall r, sv_heard r = [] -> sv_greeted r = true -> hears r b = {| sv_heard := []; sv_greeted := true; sv_owes := sv_owes r ++ encoded v [] |}.
  Hypothesis blk_ok : forall n, (n < good)%N -> fine (blk n) /\ forall m, parsed (blk n) m -> filter m = true /\ get_content_data m = data n.

  (** The data of the blocks from [j] on. *)
  Definition from_block (j : N) : bytes := flat_map data (map N.of_nat (seq (N.to_nat j) (N.to_nat cap - N.to_nat j))).
  Lemma from_block_next : forall j, (j < cap)%N -> from_block j = data j ++ from_block (j + 1).
  Proof.
    intros j L. unfold from_block. replace (N.to_nat cap - N.to_nat j)%nat with (S (N.to_nat cap - N.to_nat (j + 1))) by lia.
    cbn [seq map flat_map]. rewrite N2Nat.id. replace (S (N.to_nat j)) with (N.to_nat (j + 1)) by lia. reflexivity.
  Qed.
  Lemma from_block_end : forall j, (cap <= j)%N -> from_block j = [].
  Proof. intros j L. unfold from_block. replace (N.to_nat cap - N.to_nat j)%nat with O by lia. reflexivity. Qed.

  (** What was asked for does not come. *)
  Lemma live_idle : forall fuel x r A Q b idle, talking x r A Q -> (forall m, In m (A ++ map snd Q) -> fine m) ->
    sized size x -> p_choked x = false -> (forall w m, In w (A ++ map snd Q) -> parsed w m -> filter m = false) ->
    mb_capacity b = cap -> (lenN (mb_buffer b) < cap)%N -> mb_expected_size b = (lenN (mb_buffer b) + 1)%N -> (idle <= 10)%N ->
    (11 * List.length (A ++ map snd Q) + 11 - N.to_nat idle <= fuel)%nat ->
    exists y r1, execute_l serving hears server_says fuel filter next x r b idle = Ret (Err Idle, y, r1).
  Proof.
    induction fuel as [|fuel IH]; intros x r A Q b idle T F SZ CH HH EC LJ X LI L; [lia|].
    cbn [execute_l]. destruct (live_attempt x r A Q T F (or_intror SZ)) as (om & x1 & r1 & RM & A' & Q' & T' & _ & B2 & B3 & _ & CASES).
    rewrite RM. cbn [obind]. set (x2 := match om with Some m => apply_message x1 m | None => x1 end) in *.
    specialize (B2 SZ). specialize (B3 CH).
    assert (NFull : is_full b = false) by (unfold is_full; apply N.eqb_neq; lia).
    assert (AE : is_len_as_expected b = true) by (apply N.eqb_eq; exact X).
    destruct CASES as [(-> & -> & -> & QQ)|(m & w & -> & P & EQ & LT & _ & _)].
    - cbv iota beta. change x1 with x2. rewrite NFull. unfold is_choked. rewrite B3. unfold request_next_message. rewrite AE. cbn [orb obind].
      rewrite (told_nothing _ _ _ _ T'). assert (EQ : map snd Q' = map snd Q) by (destruct QQ as [(-> & ->)|(k & m & t & -> & ->)]; reflexivity).
      destruct (N.ltb_spec 10 (idle + 1)) as [G|G]; [eauto|].
      apply (IH x2 r1 [] Q'); auto; cbn [app] in *; rewrite EQ; auto. lia.
    - cbv iota beta. change (apply_message x1 m) with x2. unfold push_message. rewrite (HH w m) by (try exact P; rewrite EQ; left; reflexivity). cbn [andb].
      rewrite NFull. unfold is_choked. rewrite B3. unfold request_next_message. rewrite AE. cbn [orb obind].
      rewrite (told_nothing _ _ _ _ T'). change (10 <? 0 + 1)%N with false. cbv iota. rewrite EQ in L. cbn [List.length] in L.
      apply (IH x2 r1 A' Q'); auto; try lia.
      + intros m' I. apply F. rewrite EQ. right. exact I.
      + intros w' m' I. apply HH. rewrite EQ. right. exact I.
  Qed.

  (** Block [j] was asked for, or not yet. *)
  Definition asked_for (b : msg_buffer) (idle : N) (A : list raw) (Q : list (nat * raw)) (harmless : list raw) (fuel : nat) : Prop :=
    let j := lenN (mb_buffer b) in
    ((j < good)%N /\ mb_expected_size b = (j + 1)%N /\ A ++ map snd Q = harmless ++ [blk j] /\ (N.to_nat idle + silence A Q <= 10)%nat /\
       (List.length A + attempts_for Q + 10 * (N.to_nat good - N.to_nat j - 1) + 121 * (N.to_nat (cap - good)) <= fuel)%nat) \/
    ((j <= good)%N /\ mb_expected_size b = j /\ A ++ map snd Q = harmless /\ idle = 0%N /\
       (List.length A + attempts_for Q + 1 + 10 * (N.to_nat good - N.to_nat j) + 121 * (N.to_nat (cap - good)) <= fuel)%nat).

  Lemma live_execute_ok : forall fuel x r A Q b idle H, talking x r A Q -> (forall m, In m (A ++ map snd Q) -> fine m) ->
    sized size x -> p_choked x = false -> Forall (fun q => fst q <= 9)%nat Q ->
    (forall w m, In w H -> parsed w m -> filter m = false) ->
    mb_capacity b = cap -> (lenN (mb_buffer b) < cap)%N -> (List.length H <= 10)%nat -> asked_for b idle A Q H fuel ->
    exists y r1, execute_l serving hears server_says fuel filter next x r b idle =
      Ret (if (good =? cap)%N then Ok (flat_map get_content_data (mb_buffer b) ++ from_block (lenN (mb_buffer b))) else Err Idle, y, r1).
  Proof.
    induction fuel as [|fuel IH]; intros x r A Q b idle H T F SZ CH FQ HH EC LJ LH AF.
    { exfalso. destruct AF as [(_ & _ & E & _ & L)|(_ & _ & _ & _ & L)]; [|lia].
      destruct A; [|cbn [List.length] in L; lia]. destruct Q as [|q Q]; [destruct H; discriminate|]. rewrite attempts_cons in L. lia. }
    cbn [execute_l]. destruct (live_attempt x r A Q T F (or_intror SZ)) as (om & x1 & r1 & RM & A' & Q' & T' & _ & B2 & B3 & BB & CASES).
    rewrite RM. cbn [obind]. set (x2 := match om with Some m => apply_message x1 m | None => x1 end) in *.
    specialize (B2 SZ). specialize (B3 CH). specialize (BB _ FQ).
    assert (NFull : is_full b = false) by (unfold is_full; apply N.eqb_neq; lia).
    unfold asked_for in AF. cbv zeta in AF. set (j := lenN (mb_buffer b)) in *.
    pose proof (proj1 (proj2 (proj2 T'))) as T3.
    (* asking for block [k] when [k] blocks have been received *)
    assert (ASK : forall b1 idle1 H1, mb_capacity b1 = cap -> (lenN (mb_buffer b1) < cap)%N -> mb_expected_size b1 = lenN (mb_buffer b1) -> idle1 = 1%N ->
      A' ++ map snd Q' = H1 -> (forall w, In w H1 -> fine w) -> (forall w m, In w H1 -> parsed w m -> filter m = false) ->
      (lenN (mb_buffer b1) <= good)%N -> (List.length H1 <= 10)%nat ->
      (List.length A' + attempts_for Q' + 10 * (N.to_nat good - N.to_nat (lenN (mb_buffer b1))) + 121 * (N.to_nat (cap - good)) <= fuel)%nat ->
      exists y r2, ('(b2, x3) <- request_next_message next b1 x2 ;;
        (if (10 <? idle1)%N then Ret (Err Idle, x3, told serving hears x2 x3 r1)
         else execute_l serving hears server_says fuel filter next x3 (told serving hears x2 x3 r1) b2 idle1))
       = Ret (if (good =? cap)%N then Ok (flat_map get_content_data (mb_buffer b1) ++ from_block (lenN (mb_buffer b1))) else Err Idle, y, r2)).
    { intros b1 idle1 H1 C1 L1 X1 -> E1 F1 HF1 LG1 LH1 LF. set (k := lenN (mb_buffer b1)) in *.
      assert (NF1 : is_full b1 = false) by (unfold is_full; apply N.eqb_neq; fold k; lia).
      assert (NX1 : is_len_as_expected b1 = false) by (unfold is_len_as_expected; apply N.eqb_neq; fold k; lia).
      unfold request_next_message. rewrite NF1, NX1. cbn [orb]. fold k.
      destruct (N.eq_dec k good) as [EG|NG].
      { replace (good =? cap)%N with false by (symmetry; apply N.eqb_neq; lia). rewrite EG.
        destruct (next_none x2 T3 B2 ltac:(lia)) as (w & -> & HW). cbn [obind]. change (10 <? 1)%N with false. cbv iota.
        pose proof (talking_more _ _ _ _ _ _ T' HW) as TM. rewrite app_nil_r in TM.
        apply (live_idle fuel _ _ A' Q'); auto; cbn [mb_buffer mb_expected_size mb_capacity]; try lia.
        - intros m I. apply F1. rewrite <- E1. exact I.
        - intros w' m I. apply HF1. rewrite <- E1. exact I.
        - rewrite E1. lia. }
      assert (LG2 : (k < good)%N) by lia.
      destruct (next_ok x2 k T3 B2 LG2) as (w & -> & HW). cbn [obind]. change (10 <? 1)%N with false. cbv iota.
      assert (FT : Forall (fun q => fst q <= 9)%nat (Q' ++ [(delay k, blk k)])).
      { apply Forall_app. split; [exact BB|]. constructor; [apply delay_ok|constructor]. }
      destruct (IH (after_sending x2 w) (told serving hears x2 (after_sending x2 w) r1) A' (Q' ++ [(delay k, blk k)])
        {| mb_buffer := mb_buffer b1; mb_capacity := mb_capacity b1; mb_expected_size := mb_expected_size b1 + 1 |} 1%N H1)
        as (y & r2 & EX); auto.
      - apply talking_more; assumption.
      - intros m I. rewrite map_app, app_assoc, E1 in I. apply in_app_or in I as [I|[<-|[]]]; [apply F1, I|apply blk_ok; exact LG2].
      - left. cbn [mb_buffer mb_expected_size]. fold k. split; [exact LG2|]. split; [lia|]. split; [rewrite map_app, app_assoc, E1; reflexivity|].
        split; [pose proof (silence_le A' _ _ FT); lia|]. unfold attempts_for in *. rewrite map_app, list_sum_app. cbn [map fst list_sum fold_right].
        pose proof (delay_ok k). unfold raw in *. lia.
      - exists y, r2. exact EX. }
    destruct CASES as [(-> & -> & -> & QQ)|(m & w & -> & P & EQ & LT & _ & _)].
    - (* nothing comes *)
      cbv iota beta. change x1 with x2. rewrite NFull. unfold is_choked. rewrite B3. destruct AF as [(LG & X & E & S & L)|(LG & X & E & -> & L)].
      + destruct QQ as [(-> & _)|(k & m & t & -> & ->)]; [destruct H; discriminate|].
        unfold request_next_message. replace (is_len_as_expected b) with true by (symmetry; apply N.eqb_eq; exact X). cbn [orb obind].
        rewrite (told_nothing _ _ _ _ T'). cbn [silence fst] in S. rewrite attempts_cons in L. cbn [fst List.length] in L.
        replace (10 <? idle + 1)%N with false by (symmetry; apply N.ltb_ge; lia).
        apply (IH x2 r1 [] ((k, m) :: t) b (idle + 1)%N H); auto.
        left. cbv zeta. fold j. split; [exact LG|]. split; [exact X|]. split; [exact E|]. split; [cbn [silence]; lia|]. rewrite attempts_cons. cbn [fst List.length]. lia.
      + destruct (ASK b (0 + 1)%N H) as (y & r2 & EX); auto.
        * destruct QQ as [(-> & ->)|(k & m & t & -> & ->)]; exact E.
        * intros w I. apply F. rewrite E. exact I.
        * fold j. cbn [List.length] in *. destruct QQ as [(-> & ->)|(k & m & t & -> & ->)]; rewrite ?attempts_cons in *; cbn [fst] in *; lia.
        * exists y, r2. exact EX.
    - cbv iota beta. change (apply_message x1 m) with x2. destruct AF as [(LG & X & E & S & L)|(LG & X & E & -> & L)].
      + rewrite EQ in E. destruct H as [|h H]; cbn [app] in E.
        * (* the block *)
          injection E as Ew E. apply app_eq_nil in E as [-> EQ']. destruct Q' as [|q Q']; [|discriminate].
          destruct (blk_ok j LG) as [_ BK]. rewrite <- Ew in BK. destruct (BK m P) as [FM DM]. unfold push_message. rewrite FM, NFull. cbn [negb andb].
          set (b1 := {| mb_buffer := mb_buffer b ++ [m]; mb_capacity := mb_capacity b; mb_expected_size := mb_expected_size b |}).
          assert (LB1 : lenN (mb_buffer b1) = (j + 1)%N) by (cbn [b1 mb_buffer]; unfold j, lenN; rewrite app_length; cbn [List.length]; lia).
          assert (DB1 : flat_map get_content_data (mb_buffer b) ++ from_block j = flat_map get_content_data (mb_buffer b1) ++ from_block (j + 1)).
          { cbn [b1 mb_buffer]. rewrite flat_map_app. cbn [flat_map]. rewrite app_nil_r, DM, <- app_assoc, from_block_next by exact LJ. reflexivity. }
          rewrite DB1. destruct (N.eq_dec (j + 1) cap) as [EJ|NJ].
          -- replace (is_full b1) with true by (symmetry; apply N.eqb_eq; rewrite LB1; cbn [b1 mb_capacity]; congruence).
             replace (good =? cap)%N with true by (symmetry; apply N.eqb_eq; lia).
             unfold assemble_content. rewrite from_block_end by lia. rewrite app_nil_r. eauto.
          -- replace (is_full b1) with false by (symmetry; apply N.eqb_neq; rewrite LB1; cbn [b1 mb_capacity]; rewrite EC; exact NJ).
             unfold is_choked. rewrite B3. rewrite <- LB1.
             destruct (ASK b1 (0 + 1)%N []) as (y & r2 & EX);
               [exact EC|rewrite LB1; lia|rewrite LB1; exact X|reflexivity|reflexivity|intros w' []|intros w' m' []|rewrite LB1; lia|cbn [List.length]; lia| |exists y, r2; exact EX].
             rewrite LB1. cbn [List.length]. change (attempts_for []) with O. cbn [List.length] in LT. lia.
        * (* something harmless *)
          injection E as Ew E. unfold push_message. rewrite (HH h m) by (try (left; reflexivity); rewrite <- Ew; exact P). cbn [andb].
          rewrite NFull. unfold is_choked. rewrite B3. unfold request_next_message.
          replace (is_len_as_expected b) with true by (symmetry; apply N.eqb_eq; exact X). cbn [orb obind].
          rewrite (told_nothing _ _ _ _ T'). change (10 <? 0 + 1)%N with false. cbv iota.
          apply (IH x2 r1 A' Q' b (0 + 1)%N H); auto.
          -- intros m' I. apply F. rewrite EQ. right. exact I.
          -- intros w' m' I. apply HH. right. exact I.
          -- cbn [List.length] in LH. lia.
          -- left. cbv zeta. fold j. split; [exact LG|]. split; [exact X|]. split; [exact E|]. split; [pose proof (silence_le A' _ _ BB); lia|]. lia.
      + (* something harmless before anything was asked for *)
        rewrite EQ in E. destruct H as [|h H]; [discriminate|]. injection E as Ew E.
        unfold push_message. rewrite (HH h m) by (try (left; reflexivity); rewrite <- Ew; exact P). cbn [andb]. rewrite NFull. unfold is_choked. rewrite B3.
        destruct (ASK b (0 + 1)%N H) as (y & r2 & EX); auto.
        * intros w' I. apply F. rewrite EQ, <- E in *. right. exact I.
        * intros w' m' I. apply HH. right. exact I.
        * cbn [List.length] in LH. lia.
        * fold j. lia.
        * exists y, r2. exact EX.
  Qed.
End Serving.
