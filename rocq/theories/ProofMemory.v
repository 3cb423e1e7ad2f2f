(** ProofMemory: what is reserved for messages (for C75) *)
From Verif Require Import Base ModelBencode ModelMessages ModelTorrent ModelTracker ModelStream ModelPeer ModelActors ModelMemory
  SpecBencode SpecTorrent SpecMessages SpecWriter SpecPieces SpecStream SpecPeer SpecSession SpecWrites SpecCache SpecVerdict SpecMemory
  ProofBase ProofMessages ProofTorrent ProofPieces ProofStream ProofPeer ProofSession ProofWrites ProofCache2 ProofVerdict ProofHear ProofTold ProofExactly.

Lemma frame_m : forall s, fst (read_frame_m s) = read_frame s.
Proof.
  intros s. unfold read_frame_m, read_frame. destruct (read 4 s) as [[got|] s1]; [|reflexivity]. destruct (read 1 s1) as [[got1|] s2]; [|reflexivity].
  destruct (_ =? 0)%N; [reflexivity|]. destruct (read_body 39 _ s2) as [[body|] s3]; reflexivity.
Qed.
Lemma stream_m : forall s, fst (read_stream_m s) = read_stream s.
Proof.
  intros s. unfold read_stream_m, read_stream. destruct (has_messages s) as [some s1]. destruct (negb some); [reflexivity|].
  destruct (peek 68 s1) as [[buf|] s2]; [|apply frame_m]. destruct (_ && _); [|apply frame_m]. destruct (read 68 s2) as [[got|] s3]; reflexivity.
Qed.
Lemma messages_m : forall n s, map fst (read_messages_m n s) = fst (read_messages n s).
Proof.
  induction n as [|n IH]; intros s; [reflexivity|]. cbn [read_messages_m read_messages]. pose proof (stream_m s) as E.
  destruct (read_stream_m s) as [[r s1] k]. cbn [fst] in E. rewrite <- E. cbn [map fst]. rewrite IH. destruct (read_messages n s1). reflexivity.
Qed.
Lemma messages_m_length : forall n s, List.length (read_messages_m n s) = n.
Proof.
  induction n as [|n IH]; intros s; [reflexivity|]. cbn [read_messages_m]. destruct (read_stream_m s) as [[r s1] k]. cbn [List.length]. now rewrite IH.
Qed.

(** ** What is consumed *)
Lemma read_consumes : forall n s, (List.length (match fst (read n s) with Some g => g | None => [] end) + List.length (incoming (snd (read n s))))%nat
  = List.length (incoming s).
Proof.
  intros n s. unfold read. destruct (env_incoming s) as [I _]. destruct (env_step s) as [f s1]. cbn [snd] in I. rewrite <- I.
  destruct f; [reflexivity|]. destruct (st_avail s1) as [|b l] eqn:E; cbn [fst snd]; [destruct (st_closed s1); reflexivity|].
  unfold incoming, set_avail. cbn [st_avail st_closed st_sched]. rewrite E, !app_length. rewrite <- (takeN_drop _ n (b :: l)) at 3. rewrite app_length. lia.
Qed.
Lemma peek_and_read_consumes : forall n s, (List.length (match fst (peek_and_read n s) with Some g => g | None => [] end) + List.length (incoming (snd (peek_and_read n s))) <= List.length (incoming s))%nat
  /\ forall g, fst (peek_and_read n s) = Some g -> lenN g = n.
Proof.
  intros n s. unfold peek_and_read. destruct (peek_incoming n s) as [I _]. destruct (peek n s) as [pk s1]. cbn [snd] in I. rewrite <- I.
  destruct (_ =? n)%N; [|cbn [fst snd]; split; [cbn; lia|discriminate]]. pose proof (read_consumes n s1) as R. destruct (read n s1) as [rd s2]. cbn [fst snd] in R.
  cbv zeta. remember (match rd with Some got => got | None => [] end) as got eqn:G.
  assert (R' : (List.length got + List.length (incoming s2))%nat = List.length (incoming s1)) by (rewrite G; exact R). clear G R.
  destruct (N.eqb_spec (lenN got) n) as [E|E]; cbn [fst snd].
  - split; [lia|]. intros g [= <-]. exact E.
  - split; [cbn [List.length]; lia|discriminate].
Qed.
Lemma body_consumes : forall t n s, (List.length (match fst (read_body t n s) with Some g => g | None => [] end) + List.length (incoming (snd (read_body t n s))) <= List.length (incoming s))%nat
  /\ forall g, fst (read_body t n s) = Some g -> lenN g = n.
Proof.
  induction t as [|t IH]; intros n s; cbn [read_body]; [cbn [fst snd]; split; [cbn; lia|discriminate]|].
  destruct (peek_and_read_consumes n s) as [L E]. destruct (peek_and_read n s) as [[body|] s1]; cbn [fst snd] in *; [auto|].
  destruct (IH n s1) as [L' E']. cbn [List.length] in L. split; [lia|exact E'].
Qed.
Definition size_of (o : option (bytes * N * N)) : nat := match o with Some (b, _, _) => List.length b | None => 0 end.
Lemma frame_consumes : forall s, let '(r, s', k) := read_frame_m s in
  (size_of r + List.length (incoming s') <= List.length (incoming s))%nat /\ (r <> None -> k = N.of_nat (size_of r)).
Proof.
  intros s. unfold read_frame_m. pose proof (read_consumes 4 s) as R1. destruct (read 4 s) as [[got|] s1]; cbn [fst snd] in R1; [|cbn; split; [lia|congruence]].
  pose proof (read_consumes 1 s1) as R2. destruct (read 1 s1) as [[got1|] s2]; cbn [fst snd] in R2; [|cbn; split; [lia|congruence]].
  destruct (_ =? 0)%N; [cbn; split; [lia|reflexivity]|]. remember (from_be (overlay [0; 0; 0; 0]%N got) - 1)%N as len eqn:El. clear El.
  destruct (body_consumes 39 len s2) as [L E]. destruct (read_body 39 len s2) as [[body|] s3]; cbn [fst snd size_of] in *; [|split; [cbn in L; lia|congruence]].
  split; [lia|]. intros _. symmetry. exact (E _ eq_refl).
Qed.
Lemma stream_consumes : forall s, let '(r, s', k) := read_stream_m s in
  (size_of r + List.length (incoming s') <= List.length (incoming s))%nat /\ (r <> None -> k = N.of_nat (size_of r)).
Proof.
  intros s. unfold read_stream_m, has_messages. destruct (peek_incoming 1 s) as [I1 _]. destruct (peek 1 s) as [r0 s1]. cbn [snd] in I1. rewrite <- I1.
  destruct (negb _); [cbn; split; [lia|congruence]|]. destruct (peek_incoming 68 s1) as [I2 _].
  assert (PK : forall g, fst (peek 68 s1) = Some g -> lenN g = 68%N -> (68 <= List.length (st_avail (snd (peek 68 s1))))%nat).
  { intros g. unfold peek. destruct (env_step s1) as [f s2]. destruct f; [discriminate|]. destruct (st_avail s2) as [|b l] eqn:E; cbn [fst snd].
    - destruct (st_closed s2); [intros [= <-]; discriminate|discriminate].
    - intros [= <-] L. rewrite E. pose proof (takeN_drop _ 68%N (b :: l)) as T. apply (f_equal (@List.length N)) in T. rewrite app_length in T. unfold lenN in L. lia. }
  destruct (peek 68 s1) as [rp s2]. cbn [fst snd] in *. rewrite <- I2. pose proof (frame_consumes s2) as F. destruct rp as [buf|]; [|exact F].
  destruct (N.eqb_spec (lenN buf) 68) as [L|L]; [|exact F]. destruct (_ =? 19)%N; [|exact F]. cbn [andb]. specialize (PK _ eq_refl L).
  assert (RC : forall g, fst (read 68 s2) = Some g -> List.length g = 68%nat).
  { intros g. unfold read. destruct (env_incoming s2) as [_ [m A]]. destruct (env_step s2) as [f s3]. cbn [snd] in A. destruct f; [discriminate|].
    destruct (st_avail s3) as [|b l] eqn:E; [destruct (st_avail s2); [cbn in PK; lia|discriminate]|]. cbn [fst]. intros [= <-].
    pose proof (takeN_length _ 68%N (b :: l)) as T. unfold lenN in T. apply (f_equal (@List.length N)) in A. rewrite app_length in A. lia. }
  pose proof (read_consumes 68 s2) as R. destruct (read 68 s2) as [[got|] s3]; cbn [fst snd] in *; [|cbn [size_of]; split; [lia|congruence]].
  specialize (RC _ eq_refl). unfold size_of, overlay. rewrite app_length, skipn_length. unfold lenN in L. rewrite RC in *. split; [lia|]. intros _. lia.
Qed.
Lemma used_received : forall c s l, reserves s c l -> (used c l <= lenN (incoming s))%N.
Proof.
  induction c as [|o c IH]; intros s l [D L]; [cbn [used]; lia|]. cbn [List.length read_messages_m] in D, L. pose proof (stream_consumes s) as C.
  destruct (read_stream_m s) as [[r s1] k]. destruct C as [C K]. cbn [map fst snd] in D, L. injection D as Do Dc. subst l.
  specialize (IH s1 _ (conj Dc eq_refl)). unfold lenN in *. destruct r as [[[b i] n]|]; cbn [option_map] in Do; subst o; cbn [used size_of] in *.
  - rewrite K by discriminate. lia.
  - lia.
Qed.
Definition body_length (o : heard) : N := match o with Some (_, b) => lenN b | None => 0%N end.
Lemma used_bodies : forall c s l, reserves s c l -> used c l = sum (map body_length c).
Proof.
  induction c as [|o c IH]; intros s l [D L]; [reflexivity|]. cbn [List.length read_messages_m] in D, L. pose proof (stream_consumes s) as C.
  destruct (read_stream_m s) as [[r s1] k]. destruct C as [C K]. cbn [map fst snd] in D, L. injection D as Do Dc. subst l.
  specialize (IH s1 _ (conj Dc eq_refl)). destruct r as [[[b i] n]|]; cbn [option_map] in Do; subst o; cbn [used size_of map sum fold_right body_length] in *; unfold sum in IH; rewrite IH.
  - rewrite K by discriminate. reflexivity.
  - lia.
Qed.
Lemma from_be_four : forall l, octets l -> List.length l = 4%nat -> (from_be l < 2 ^ 32)%N.
Proof.
  intros l O L. destruct l as [|a [|b [|c [|d [|? ?]]]]]; try discriminate. unfold octets in O. rewrite !Forall_cons_iff in O. unfold from_be. cbn [fold_left]. lia.
Qed.
Lemma overlay_length : forall l got, (List.length got <= List.length l)%nat -> List.length (overlay l got) = List.length l.
Proof. intros l got L. unfold overlay. rewrite app_length, skipn_length. lia. Qed.
Lemma read_at_most : forall n s g, fst (read n s) = Some g -> (lenN g <= n)%N.
Proof.
  intros n s g. unfold read. destruct (env_step s) as [f s1]. destruct f; [discriminate|]. destruct (st_avail s1) as [|b l]; cbn [fst].
  - destruct (st_closed s1); [intros [= <-]; cbn; lia|discriminate].
  - intros [= <-]. rewrite takeN_length. lia.
Qed.
Lemma frame_bounded : forall s, octets (incoming s) -> (snd (read_frame_m s) < 2 ^ 32 - 1)%N.
Proof.
  intros s O. unfold read_frame_m. destruct (read_octets 4 s O) as [O1 _]. pose proof (read_at_most 4 s) as L1. destruct (read 4 s) as [[got|] s1]; [|reflexivity].
  cbn [fst] in *. specialize (O1 _ eq_refl). specialize (L1 _ eq_refl). destruct (read 1 s1) as [[got1|] s2]; [|reflexivity].
  assert (B : (from_be (overlay [0; 0; 0; 0]%N got) < 2 ^ 32)%N).
  { apply from_be_four; [|apply overlay_length; unfold lenN in L1; cbn [List.length]; lia].
    unfold overlay. apply octets_app. split; [exact O1|]. apply octets_skipn. repeat constructor. }
  destruct (N.eqb_spec (from_be (overlay [0; 0; 0; 0]%N got)) 0) as [Z|Z]; [reflexivity|].
  destruct (read_body 39 _ s2) as [[body|] s3]; cbn [snd]; lia.
Qed.
Lemma stream_bounded : forall s, octets (incoming s) -> (snd (read_stream_m s) < 2 ^ 32 - 1)%N.
Proof.
  intros s O. unfold read_stream_m, has_messages. destruct (peek_octets 1 s O) as [_ O1]. destruct (peek 1 s) as [r s1]. cbn [snd] in O1.
  destruct (negb _); [reflexivity|]. destruct (peek_octets 68 s1 O1) as [_ O2]. destruct (peek 68 s1) as [[buf|] s2]; cbn [snd] in O2; [|now apply frame_bounded].
  destruct (_ && _); [|now apply frame_bounded]. destruct (read 68 s2) as [[got|] s3]; reflexivity.
Qed.
Lemma all_bounded : forall n s, octets (incoming s) -> Forall (fun k => (k < 2 ^ 32 - 1)%N) (map snd (read_messages_m n s)).
Proof.
  induction n as [|n IH]; intros s O; [constructor|]. cbn [read_messages_m]. pose proof (stream_bounded s O) as B. pose proof (stream_m s) as E.
  destruct (read_stream_octets s O) as [_ O1]. rewrite <- E in O1. destruct (read_stream_m s) as [[r s1] k]. cbn [fst snd map] in *. constructor; [exact B|now apply IH].
Qed.
Lemma delivers_reserves : forall s c, delivers s c -> exists l, reserves s c l /\ List.length l = List.length c.
Proof.
  intros s c D. exists (map snd (read_messages_m (List.length c) s)). split; [split; [|reflexivity]|rewrite map_length; apply messages_m_length].
  unfold delivers in D. rewrite <- messages_m in D. rewrite map_map in D. exact D.
Qed.
Lemma reserves_bounded : forall s c l, octets (incoming s) -> reserves s c l -> Forall (fun k => (k < 2 ^ 32 - 1)%N) l.
Proof. intros s c l O [_ <-]. now apply all_bounded. Qed.
Lemma sum_app : forall a b, sum (a ++ b) = (sum a + sum b)%N.
Proof. intros a b. unfold sum. induction a as [|x a IH]; cbn [app fold_right]; [lia|]. rewrite IH. lia. Qed.
Lemma blocks_size : forall c, (lenN (List.concat (blocks c)) <= sum (map body_length c))%N.
Proof.
  intros c. induction c as [|o c IH]; [cbn; lia|]. change (o :: c) with ([o] ++ c). rewrite blocks_app, concat_app, map_app, sum_app. unfold lenN in *. rewrite app_length.
  assert (H : (N.of_nat (List.length (List.concat (blocks [o]))) <= sum (map body_length [o]))%N).
  { destruct o as [[id b]|]; [|cbn; lia]. unfold blocks. cbn [flat_map map body_length sum fold_right]. rewrite app_nil_r. destruct (_ || _); cbn [List.concat]; [|cbn; lia].
    rewrite app_nil_r, skipn_length. unfold lenN. lia. }
  rewrite Nat2N.inj_add. apply N.add_le_mono; [exact H|exact IH].
Qed.
Lemma data_short : forall r m e, parsed r m -> msg_content m = CExtension e -> (lenN (ex_get_data e) <= lenN (snd r))%N.
Proof.
  intros [id body] m e [len P] C. cbn [fst snd] in *. unfold new_raw in P.
  destruct (id =? 2)%N; [injection P as <-; discriminate|]. destruct (id =? 5)%N; [injection P as <-; discriminate|].
  destruct ((id =? 7)%N || (id =? 6)%N); [destruct (request_from_bytes body); cbn [obind] in P; try discriminate; injection P as <-; discriminate|].
  destruct (id =? 20)%N.
  - destruct (extension_from_bytes body) as [[x|]| |] eqn:E; cbn [orbind obind] in P; try discriminate. injection P as <-. cbn [msg_content] in C. injection C as ->.
    unfold extension_from_bytes in E. destruct (slice_from body 1) as [rest| |]; cbn [obind] in E; try discriminate.
    destruct (decode rest) as [[[content k]|]| |]; cbn [obind] in E; try discriminate. destruct (index body 0); cbn [obind] in E; try discriminate.
    destruct (slice_from body (k + 1)) as [d| |] eqn:S; cbn [obind] in E; try discriminate. injection E as <-. cbn [ex_get_data ex_data].
    unfold slice_from in S. destruct (_ <=? _)%nat; [|discriminate]. injection S as <-. unfold lenN. rewrite skipn_length. lia.
  - destruct (id =? 19)%N; [destruct (handshake_from_bytes body); cbn [obind] in P; try discriminate; injection P as <-; discriminate|]. injection P as <-. discriminate.
Qed.
Lemma meta_size : forall c l, metadata_blocks c l -> (lenN (List.concat l) <= sum (map body_length c))%N.
Proof.
  intros c l M. induction M as [|c l M IH|r m e c l P C T M IH|r c l O M IH]; unfold sum in *; cbn [map body_length fold_right]; [cbn; lia|lia| |].
  - cbn [List.concat]. unfold lenN at 1. rewrite app_length, Nat2N.inj_add. destruct r as [id b]. apply N.add_le_mono; [|exact IH].
    exact (data_short _ _ _ P C).
  - destruct r as [id b]. eapply N.le_trans; [exact IH|]. lia.
Qed.
Lemma sum_suffix : forall a b, (sum (map body_length b) <= sum (map body_length (a ++ b)))%N.
Proof. intros a b. rewrite map_app, sum_app. lia. Qed.
Lemma piece_ends_size : forall ih cut k c d, piece_ends ih cut k c (Received d) -> (lenN d <= sum (map body_length c))%N.
Proof.
  intros ih cut k c d E. inversion E as [| | |h a n b l O G NB GB CN| | |]; subst. unfold piece_blocks in GB. subst l.
  eapply N.le_trans; [apply blocks_size|]. change (h :: a ++ b) with ((h :: a) ++ b). apply sum_suffix.
Qed.
Lemma info_ends_size : forall ih cut c d, info_ends ih cut c (Received d) -> (lenN d <= sum (map body_length c))%N.
Proof.
  intros ih cut c d E. inversion E as [| | |h a n b l O G NB GB CN| | |]; subst.
  eapply N.le_trans; [apply meta_size; exact GB|]. change (h :: a ++ b) with ((h :: a) ++ b). apply sum_suffix.
Qed.

(** ** In vain *)
Lemma read_prefix : forall n s g, fst (read n s) = Some g -> incoming s = g ++ incoming (snd (read n s)).
Proof.
  intros n s g. unfold read. destruct (env_incoming s) as [I _]. destruct (env_step s) as [f s1]. cbn [snd] in I. rewrite <- I.
  destruct f; [discriminate|]. destruct (st_avail s1) as [|b l] eqn:E; cbn [fst snd].
  - destruct (st_closed s1); [intros [= <-]; reflexivity|discriminate].
  - intros [= <-]. unfold incoming, set_avail. cbn [st_avail st_closed st_sched]. rewrite E, app_assoc, takeN_drop. reflexivity.
Qed.
Lemma frame_vain : forall s, let '(r, s', k) := read_frame_m s in r = None -> k <> 0%N ->
  exists n, (1 <= n <= 4)%nat /\ (n <= List.length (incoming s))%nat /\ (k + 1 = big_endian_value (firstn n (incoming s) ++ repeat 0 (4 - n)))%N.
Proof.
  intros s. unfold read_frame_m. pose proof (read_prefix 4 s) as P. pose proof (read_at_most 4 s) as L. destruct (read 4 s) as [[got|] s1]; [|congruence]. cbn [fst snd] in *.
  specialize (P _ eq_refl). specialize (L _ eq_refl). destruct (read 1 s1) as [[got1|] s2]; [|congruence].
  destruct (N.eqb_spec (from_be (overlay [0; 0; 0; 0]%N got)) 0) as [Z|Z]; [congruence|].
  destruct (read_body 39 _ s2) as [[body|] s3]; [congruence|]. intros _ _. exists (List.length got).
  assert (F : firstn (List.length got) (incoming s) = got) by (rewrite P, firstn_app, Nat.sub_diag, firstn_O, app_nil_r; apply firstn_all).
  rewrite F. split; [|split; [rewrite P, app_length; lia|]].
  - unfold lenN in L. split; [|lia]. destruct got; [exfalso; apply Z; reflexivity|cbn [List.length]; lia].
  - unfold overlay in *. unfold lenN in L. destruct got as [|a [|b [|c [|e [|? ?]]]]]; cbn [List.length] in L; try lia;
      cbn [List.length skipn app repeat Nat.sub from_be fold_left big_endian_value] in *; unfold from_be in *; cbn [fold_left] in *; cbn; lia.
Qed.
Lemma c75_vain : forall s, let '(r, s', k) := read_stream_m s in r = None -> k <> 0%N ->
  exists n, (1 <= n <= 4)%nat /\ (n <= List.length (incoming s))%nat /\ (k + 1 = big_endian_value (firstn n (incoming s) ++ repeat 0 (4 - n)))%N.
Proof.
  intros s. unfold read_stream_m, has_messages. destruct (peek_incoming 1 s) as [I1 _]. destruct (peek 1 s) as [r0 s1]. cbn [snd] in I1. rewrite <- I1.
  destruct (negb _); [congruence|]. destruct (peek_incoming 68 s1) as [I2 _]. destruct (peek 68 s1) as [rp s2]. cbn [snd] in I2. rewrite <- I2.
  pose proof (frame_vain s2) as F. destruct rp as [buf|]; [|exact F]. destruct (_ && _); [|exact F]. destruct (read 68 s2) as [[got|] s3]; congruence.
Qed.
(** ** C75 *)
Lemma c75_attempt : forall s, let '(r, s', k) := read_stream_m s in
  read_stream s = (r, s') /\ (octets (incoming s) -> (k < 2 ^ 32 - 1)%N) /\
  (forall body id len, r = Some (body, id, len) -> k = lenN body /\ (lenN body + lenN (incoming s') <= lenN (incoming s))%N).
Proof.
  intros s. pose proof (stream_m s) as E. pose proof (stream_consumes s) as C. pose proof (stream_bounded s) as B.
  destruct (read_stream_m s) as [[r s'] k]. cbn [fst snd] in *. split; [now symmetry|]. split; [exact B|].
  intros body id len ->. destruct C as [C K]. specialize (K ltac:(discriminate)). cbn [size_of] in *. unfold lenN. split; [exact K|lia].
Qed.
Lemma c75_piece : forall sha1 p fuel s pid ep i idx total,
  parse_socket_addr ep <> None -> get_total_length p i = Ret total ->
  (0 < i_piece_length i)%N -> (idx < piece_count total (i_piece_length i))%N -> (total + i_piece_length i <= 2 ^ 64)%N ->
  (idx < 2 ^ 32)%N -> (i_piece_length i < 2 ^ 32)%N -> (20 * N.to_nat idx + 20 <= List.length (i_pieces i))%nat ->
  (11 * List.length (incoming s) + 11 < fuel)%nat ->
  let ih := compute_info_hash sha1 i in
  let cut := third_write_fails s in
  let k := piece_count (N.min (i_piece_length i) (total - idx * i_piece_length i)) 16384 in
  let hash := firstn 20 (skipn (20 * N.to_nat idx) (i_pieces i)) in
  forall r, download sha1 p fuel (Some s) pid ep i idx = Ret r ->
  exists c en l, told_by s c /\ piece_ends ih cut k c en /\ piece_result sha1 hash en r /\
    reserves s c l /\ List.length l = List.length c /\ (octets (incoming s) -> Forall (fun n => (n < 2 ^ 32 - 1)%N) l) /\
    (used c l <= lenN (incoming s))%N /\ (forall d, en = Received d -> (lenN d <= used c l)%N).
Proof.
  intros sha1 p fuel s pid ep i idx total E T H1 H2 H3 H4 H5 H6 F ih cut k hash r D.
  apply (c70_piece sha1 p fuel s pid ep i idx total E T H1 H2 H3 H4 H5 H6 F) in D as (c & en & TB & EN & R).
  destruct (delivers_reserves s c (proj1 TB)) as (l & RS & LL). exists c, en, l. split; [exact TB|]. split; [exact EN|]. split; [exact R|].
  split; [exact RS|]. split; [exact LL|]. split; [intros O; eapply reserves_bounded; eauto|]. split; [now apply used_received|].
  intros d ->. rewrite (used_bodies c s l RS). eapply piece_ends_size. exact EN.
Qed.
Lemma c75_metadata : forall fuel s pid ih ep, parse_socket_addr ep <> None -> (11 * List.length (incoming s) + 11 < fuel)%nat ->
  let cut := third_write_fails s in
  forall r, get_info fuel (Some s) pid ih ep = Ret r ->
  exists c en l, told_by s c /\ info_ends ih cut c en /\ info_result en r /\
    reserves s c l /\ List.length l = List.length c /\ (octets (incoming s) -> Forall (fun n => (n < 2 ^ 32 - 1)%N) l) /\
    (used c l <= lenN (incoming s))%N /\ (forall d, en = Received d -> (lenN d <= used c l)%N).
Proof.
  intros fuel s pid ih ep E F cut r D.
  apply (c70_metadata fuel s pid ih ep E F) in D as (c & en & TB & EN & R).
  destruct (delivers_reserves s c (proj1 TB)) as (l & RS & LL). exists c, en, l. split; [exact TB|]. split; [exact EN|]. split; [exact R|].
  split; [exact RS|]. split; [exact LL|]. split; [intros O; eapply reserves_bounded; eauto|]. split; [now apply used_received|].
  intros d ->. rewrite (used_bodies c s l RS). eapply info_ends_size. exact EN.
Qed.

(** Five bytes. *)
Lemma body_nothing : forall t n s, (0 < n)%N -> st_avail s = [] -> st_closed s = false -> st_sched s = [] -> fst (read_body t n s) = None.
Proof.
  intros t n s P A C S. induction t as [|t IH]; [reflexivity|]. cbn [read_body]. unfold peek_and_read, peek, env_step. rewrite S, A, C.
  destruct (N.eqb_spec 0 n) as [Z|Z]; [lia|]. exact IH.
Qed.
Lemma c75_five : forall n id, (0 < n)%N -> (n < 2 ^ 32 - 1)%N ->
  exists s, incoming s = big_endian 4 (n + 1) ++ [id] /\ fst (fst (read_stream_m s)) = None /\ snd (read_stream_m s) = n.
Proof.
  intros n id P L. exists {| st_avail := big_endian 4 (n + 1) ++ [id]; st_closed := false; st_sched := []; st_wsched := []; st_sent := [] |}.
  split; [unfold incoming; cbn [st_avail st_closed st_sched delivered]; apply app_nil_r|].
  pose proof (from_be_be (n + 1) ltac:(lia)) as FB. pose proof (be_length 4 (n + 1)) as BL. destruct (big_endian 4 (n + 1)) as [|a [|b [|c [|d [|? ?]]]]]; try discriminate.
  unfold read_stream_m, has_messages, peek, env_step. cbn [st_sched st_avail st_closed app]. change (takeN 1 [a; b; c; d; id]) with [a]. cbn iota. cbn [negb].
  cbn [st_sched st_avail st_closed]. change (lenN (takeN 68 [a; b; c; d; id]) =? 68)%N with false. cbn [andb].
  unfold read_frame_m, read, env_step. cbn [st_sched st_avail st_closed]. change (takeN 4 [a; b; c; d; id]) with [a; b; c; d]. change (dropN 4 [a; b; c; d; id]) with [id].
  cbn iota. cbn [set_avail st_sched st_avail st_closed]. change (takeN 1 [id]) with [id]. change (dropN 1 [id]) with (@nil N). change (overlay [0; 0; 0; 0]%N [a; b; c; d]) with [a; b; c; d].
  rewrite FB. replace (n + 1 =? 0)%N with false by (symmetry; apply N.eqb_neq; lia). replace (n + 1 - 1)%N with n by lia.
  match goal with |- context [read_body 39 n ?s] => pose proof (body_nothing 39 n s P eq_refl eq_refl eq_refl) as BN; destruct (read_body 39 n s) as [rb s3] end.
  cbn [fst] in BN. subst rb. split; reflexivity.
Qed.

(** A short description with as many pieces as one likes. *)
Lemma decimal_short : forall n, (n < 2 ^ 64)%N -> (List.length (decimal n) <= 20)%nat.
Proof.
  intros n L. destruct (decimal_canon n) as [C E]. destruct (decimal n) as [|d t]; [cbn; lia|]. destruct t as [|d' t]; [cbn; lia|].
  pose proof (canon_numeral_ge d (d' :: t) C ltac:(discriminate)) as G. rewrite E in G. cbn [List.length]. destruct (le_lt_dec (S (List.length t)) 19) as [H|H]; [lia|].
  exfalso. assert (X : (10 ^ 20 <= 10 ^ lenN (d' :: t))%N) by (apply N.pow_le_mono_r; [lia|unfold lenN; cbn [List.length]; lia]).
  assert (Y : (2 ^ 64 < 10 ^ 20)%N) by reflexivity. lia.
Qed.
Lemma c75_pool : forall p shuffle a ep n, ta_info a = None -> (n < 2 ^ 64)%N ->
  exists text i a', (List.length text <= 80)%nat /\ info_from_bytes text = Ret (Ok i) /\ i_pieces i = s2b "h" /\
    handle p (Ret (Some i)) shuffle a (PeerFound ep) = Ret (a', []) /\ exists q, ta_pool a' = Some q /\ lenN q = n.
Proof.
  intros p shuffle a ep n NI L.
  set (i := {| i_files := None; i_length := Some n; i_name := s2b "x"; i_piece_length := 1; i_pieces := s2b "h" |}).
  assert (PI : plain_info i).
  { split; [discriminate|]. split; [intros m [= <-]; exact L|]. split; [split; [repeat constructor|split; [discriminate|reflexivity]]|]. split; [reflexivity|]. split; [discriminate|reflexivity]. }
  exists (enc_info i), i. eexists. split; [|split; [now apply c09|split; [reflexivity|]]].
  - rewrite (enc_info_canonical i PI). unfold info_value, i. cbn [i_files i_length i_name i_piece_length i_pieces app].
    pose proof (decimal_short n L) as D. cbn [benc flat_map fst snd map List.concat app]. rewrite ?app_length. cbn [List.length]. rewrite ?app_length. cbn. lia.
  - unfold handle, handle_peer_found. rewrite NI. cbn [obind]. unfold i at 1, get_total_length. cbn [i_files i_length obind].
    rewrite (step_by_count n (get_piece_length i)) by reflexivity. cbn [obind]. split; [reflexivity|]. eexists. split; [reflexivity|].
    unfold pool_new, lenN. rewrite map_length, seq_length, N2Nat.id. unfold piece_count, get_piece_length, i. cbn [i_piece_length]. rewrite N.div_1_r. lia.
Qed.
