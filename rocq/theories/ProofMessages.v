(** ProofMessages: proofs about src/messages (C12-C17) *)
From Verif Require Import Base Utf8 SpecBencode SpecMessages ModelBencode ModelMessages ModelStream
  ProofBase ProofBencode ProofBencode2 ProofTorrent.

(** ** C12 *)

Lemma bits_concat : forall l acc, fold_left (fun acc b => acc ++ byte_bits b) l acc
  = acc ++ flat_map byte_bits l.
Proof.
  induction l as [|b t IH]; intros acc; cbn [fold_left flat_map]; [now rewrite app_nil_r|].
  rewrite IH, app_assoc. reflexivity.
Qed.

Lemma land_pow2 : forall n b, (0 <? N.land (2 ^ n) b)%N = N.testbit b n.
Proof.
  intros n b. destruct (N.testbit b n) eqn:E.
  - apply N.ltb_lt. destruct (N.eq_dec (N.land (2 ^ n) b) 0) as [Z|]; [|lia].
    assert (H : N.testbit (N.land (2 ^ n) b) n = false) by (rewrite Z; apply N.bits_0).
    rewrite N.land_spec, N.pow2_bits_true, E in H. discriminate.
  - apply N.ltb_ge. replace (N.land (2 ^ n) b) with 0%N; [lia|]. symmetry. apply N.bits_inj_0.
    intros k. rewrite N.land_spec. destruct (N.eq_dec n k) as [->|D].
    + rewrite E. apply andb_false_r.
    + rewrite N.pow2_bits_false by auto. reflexivity.
Qed.

Lemma byte_bits_spec : forall b, byte_bits b = map (fun j => N.testbit b (N.of_nat (7 - j))) (seq 0 8).
Proof.
  intros b. unfold byte_bits. cbn [map seq]. 
  change (N.shiftr 128 0) with (2 ^ 7)%N. change (N.shiftr 128 1) with (2 ^ 6)%N.
  change (N.shiftr 128 2) with (2 ^ 5)%N. change (N.shiftr 128 3) with (2 ^ 4)%N.
  change (N.shiftr 128 4) with (2 ^ 3)%N. change (N.shiftr 128 5) with (2 ^ 2)%N.
  change (N.shiftr 128 6) with (2 ^ 1)%N. change (N.shiftr 128 7) with (2 ^ 0)%N.
  rewrite !land_pow2. reflexivity.
Qed.

Lemma c12_length : forall l, List.length (flat_map byte_bits l) = (8 * List.length l)%nat.
Proof. induction l; cbn [flat_map]; [reflexivity|]. rewrite app_length, IHl. cbn. lia. Qed.

Lemma c12_nth : forall l k, nth_error (flat_map byte_bits l) k
  = option_map (fun b => N.testbit b (N.of_nat (7 - k mod 8))) (nth_error l (k / 8)).
Proof.
  induction l as [|b t IH]; intros k.
  - cbn [flat_map]. destruct k, ((_ : nat) / 8)%nat; reflexivity.
  - cbn [flat_map]. destruct (Nat.ltb_spec k 8) as [L|L].
    + rewrite nth_error_app1 by (cbn; lia). rewrite byte_bits_spec.
      replace (k / 8)%nat with 0%nat by (symmetry; apply Nat.div_small; lia).
      rewrite Nat.mod_small by lia. cbn [nth_error option_map].
      do 8 (destruct k as [|k]; [reflexivity|]). lia.
    + rewrite nth_error_app2 by (cbn; lia). change (List.length (byte_bits b)) with 8%nat.
      rewrite IH. replace (k / 8)%nat with (S ((k - 8) / 8)).
      2:{ replace k with ((k - 8) + 1 * 8)%nat at 2 by lia. rewrite Nat.div_add by lia. lia. }
      replace (k mod 8)%nat with ((k - 8) mod 8)%nat; [reflexivity|].
      replace k with ((k - 8) + 1 * 8)%nat at 2 by lia. now rewrite Nat.mod_add.
Qed.

Lemma c12 : forall l,
  let v := get_bitfield_as_bit_vector (bitfield_from_bytes l) in
  List.length v = (8 * List.length l)%nat /\
  forall k, nth_error v k = option_map (fun b => N.testbit b (N.of_nat (7 - k mod 8))) (nth_error l (k / 8)).
Proof.
  intros l v. unfold v, get_bitfield_as_bit_vector, bitfield_from_bytes. cbn [bf_bitfield].
  rewrite bits_concat. cbn [app]. split; [apply c12_length|apply c12_nth].
Qed.

Lemma byte_bits_inj : forall a b, (a < 256)%N -> (b < 256)%N -> byte_bits a = byte_bits b -> a = b.
Proof.
  intros a b La Lb H. rewrite !byte_bits_spec in H. cbn [map seq] in H. injection H as H7 H6 H5 H4 H3 H2 H1 H0.
  apply N.bits_inj. intros k. destruct (N.ltb_spec k 8) as [L|L].
  - cbn [Nat.sub N.of_nat Pos.of_succ_nat Pos.succ] in *.
    assert (C : (k = 0 \/ k = 1 \/ k = 2 \/ k = 3 \/ k = 4 \/ k = 5 \/ k = 6 \/ k = 7)%N) by lia.
    destruct C as [->|[->|[->|[->|[->|[->|[->| ->]]]]]]]; assumption.
  - assert (P : (256 <= 2 ^ k)%N) by (change 256%N with (2 ^ 8)%N; apply N.pow_le_mono_r; lia).
    assert (Z : forall x, (x < 256)%N -> N.testbit x k = false).
    { intros x Lx. destruct (N.eq_dec x 0) as [->|]; [apply N.bits_0|].
      apply N.bits_above_log2. apply N.log2_lt_pow2; lia. }
    rewrite !Z; auto.
Qed.

Lemma c12_inj : forall l l', bytes_ok l -> bytes_ok l' ->
  get_bitfield_as_bit_vector (bitfield_from_bytes l) = get_bitfield_as_bit_vector (bitfield_from_bytes l') ->
  l = l'.
Proof.
  unfold get_bitfield_as_bit_vector, bitfield_from_bytes. cbn [bf_bitfield].
  induction l as [|a t IH]; intros [|b t'] O O' H; rewrite !bits_concat in H; cbn [app] in H.
  - reflexivity.
  - apply (f_equal (@List.length bool)) in H. rewrite !c12_length in H. cbn [List.length] in H. lia.
  - apply (f_equal (@List.length bool)) in H. rewrite !c12_length in H. cbn [List.length] in H. lia.
  - inversion O; inversion O'; subst. cbn [flat_map] in H.
    assert (E := f_equal (firstn 8) H). assert (E' := f_equal (skipn 8) H).
    change 8%nat with (List.length (byte_bits a)) in E at 1, E' at 1.
    change 8%nat with (List.length (byte_bits b)) in E at 1, E' at 1.
    rewrite !firstn_app_len in E. rewrite !skipn_app_len in E'.
    f_equal; [now apply byte_bits_inj|]. apply IH; auto. now rewrite !bits_concat.
Qed.

(** ** Big-endian numbers *)

Lemma be_length : forall k n, List.length (big_endian k n) = k.
Proof. induction k; intros n; cbn [big_endian]; [reflexivity|]. rewrite app_length, IHk. cbn. lia. Qed.

Lemma be32_spec : forall n, (n < 2 ^ 32)%N -> be32 n = big_endian 4 n.
Proof.
  intros n L. unfold be32. cbn [big_endian app]. change (2 ^ 32)%N with 4294967296%N in L.
  rewrite !N.div_div by lia. reflexivity.
Qed.

Lemma bev_app : forall a b, big_endian_value (a ++ b)
  = (big_endian_value a * 256 ^ N.of_nat (List.length b) + big_endian_value b)%N.
Proof.
  induction a as [|x t IH]; intros b; cbn [app big_endian_value]; [lia|].
  rewrite IH, app_length, Nat2N.inj_add, N.pow_add_r. lia.
Qed.

Lemma be_value : forall k n, (n < 256 ^ N.of_nat k)%N -> big_endian_value (big_endian k n) = n.
Proof.
  induction k as [|k IH]; intros n L; cbn [big_endian].
  - cbn in *. lia.
  - rewrite bev_app, IH.
    + cbn [big_endian_value List.length]. change (N.of_nat 0) with 0%N. change (N.of_nat 1) with 1%N.
      rewrite N.pow_0_r, N.pow_1_r. pose proof (N.div_mod n 256 ltac:(lia)). lia.
    + apply N.div_lt_upper_bound; [lia|]. rewrite Nat2N.inj_succ, N.pow_succ_r' in L. lia.
Qed.

Lemma from_be_acc : forall l acc, fold_left (fun acc b => (acc * 256 + b)%N) l acc
  = (acc * 256 ^ N.of_nat (List.length l) + big_endian_value l)%N.
Proof.
  induction l as [|b t IH]; intros acc; cbn [fold_left big_endian_value List.length].
  - rewrite N.pow_0_r. lia.
  - rewrite IH, Nat2N.inj_succ, N.pow_succ_r'. lia.
Qed.
Lemma from_be_spec : forall l, from_be l = big_endian_value l.
Proof. intros l. unfold from_be. rewrite from_be_acc. lia. Qed.

Lemma from_be_be : forall n, (n < 2 ^ 32)%N -> from_be (big_endian 4 n) = n.
Proof. intros n L. rewrite from_be_spec. now apply be_value. Qed.

Lemma bev_lt : forall l, bytes_ok l -> (big_endian_value l < 256 ^ N.of_nat (List.length l))%N.
Proof.
  induction l as [|b t IH]; intros O; cbn [big_endian_value List.length]; [cbn; lia|].
  inversion O; subst. specialize (IH H2). unfold byte_ok in H1.
  rewrite Nat2N.inj_succ, N.pow_succ_r'. nia.
Qed.

Lemma be_of_value : forall l, bytes_ok l -> big_endian (List.length l) (big_endian_value l) = l.
Proof.
  intros l. induction l as [|b t IH] using rev_ind; intros O; [reflexivity|].
  apply Forall_app in O as [Ot Ob]. inversion Ob; subst. unfold byte_ok in H1.
  rewrite app_length. cbn [List.length]. rewrite Nat.add_1_r. cbn [big_endian].
  rewrite bev_app. cbn [big_endian_value List.length]. change (N.of_nat 0) with 0%N. change (N.of_nat 1) with 1%N.
  rewrite N.pow_0_r, N.pow_1_r, N.mul_1_r, N.add_0_r.
  rewrite N.div_add_l, N.div_small, N.add_0_r by lia. rewrite IH by auto.
  rewrite N.add_comm, N.mod_add, N.mod_small by lia. reflexivity.
Qed.

(** ** C13 *)

Lemma c13_request : forall pi off len, (pi < 2 ^ 32)%N -> (off < 2 ^ 32)%N -> (len < 2 ^ 32)%N ->
  message_as_bytes (new_request pi off len)
  = big_endian 4 13 ++ [6%N] ++ big_endian 4 pi ++ big_endian 4 off ++ big_endian 4 len.
Proof.
  intros pi off len L1 L2 L3. unfold message_as_bytes, new_request, message_new, request_new, request_as_bytes.
  cbn [msg_content msg_length msg_id rq_piece_index rq_block_index rq_block_data].
  rewrite !be32_spec by (assumption || reflexivity). reflexivity.
Qed.

Lemma c13_parse : forall pi off data, (pi < 2 ^ 32)%N -> (off < 2 ^ 32)%N ->
  exists m, request_from_bytes (big_endian 4 pi ++ big_endian 4 off ++ data) = Ret m /\
    rq_piece_index m = pi /\ rq_block_index m = off /\ get_block_data m = data /\
    request_as_bytes m = big_endian 4 pi ++ big_endian 4 off ++ data.
Proof.
  intros pi off data L1 L2. unfold request_from_bytes.
  rewrite slice_0_app by (now rewrite be_length). cbn [obind].
  rewrite (slice_app _ (big_endian 4 pi) (big_endian 4 off) data) by (rewrite ?be_length; reflexivity). cbn [obind].
  unfold slice_from. rewrite (proj2 (Nat.leb_le _ _)) by (rewrite !app_length, !be_length; lia). cbn [obind].
  eexists. split; [reflexivity|]. unfold request_as_bytes. cbn [rq_piece_index rq_block_index get_block_data rq_block_data].
  rewrite !from_be_be by auto. rewrite !be32_spec by auto.
  assert (E : skipn 8 (big_endian 4 pi ++ big_endian 4 off ++ data) = data).
  { rewrite app_assoc. replace 8%nat with (List.length (big_endian 4 pi ++ big_endian 4 off)).
    - apply skipn_app_len.
    - rewrite app_length, !be_length. reflexivity. }
  rewrite E. auto.
Qed.

Lemma skipn_add : forall A a b (l : list A), skipn a (skipn b l) = skipn (b + a) l.
Proof.
  intros A a b. induction b as [|b IH]; intros l; [reflexivity|].
  destruct l; cbn [skipn Nat.add]; [now rewrite skipn_nil|apply IH].
Qed.

Lemma c13_split : forall b, bytes_ok b -> (8 <= List.length b)%nat ->
  exists pi off data, (pi < 2 ^ 32)%N /\ (off < 2 ^ 32)%N /\ b = big_endian 4 pi ++ big_endian 4 off ++ data.
Proof.
  intros b O L. exists (big_endian_value (firstn 4 b)), (big_endian_value (firstn 4 (skipn 4 b))), (skipn 8 b).
  assert (L1 : List.length (firstn 4 b) = 4%nat) by (rewrite firstn_length; lia).
  assert (L2 : List.length (firstn 4 (skipn 4 b)) = 4%nat) by (rewrite firstn_length, skipn_length; lia).
  assert (O1 : bytes_ok (firstn 4 b)).
  { rewrite <- (firstn_skipn 4 b) in O. now apply Forall_app in O. }
  assert (O2 : bytes_ok (firstn 4 (skipn 4 b))).
  { rewrite <- (firstn_skipn 4 b) in O. apply Forall_app in O as [_ O].
    rewrite <- (firstn_skipn 4 (skipn 4 b)) in O. now apply Forall_app in O. }
  pose proof (bev_lt _ O1) as B1. rewrite L1 in B1. pose proof (bev_lt _ O2) as B2. rewrite L2 in B2.
  split; [exact B1|]. split; [exact B2|].
  pose proof (be_of_value _ O1) as E1. rewrite L1 in E1. pose proof (be_of_value _ O2) as E2. rewrite L2 in E2.
  rewrite E1, E2.
  assert (S8 : skipn 8 b = skipn 4 (skipn 4 b)) by (rewrite skipn_add; reflexivity).
  rewrite S8, !firstn_skipn. reflexivity.
Qed.

Lemma slice_in : forall A (l : list A) a b, (a <= b)%nat -> (b <= List.length l)%nat ->
  slice l a b = Ret (firstn (b - a) (skipn a l)).
Proof. intros A l a b H1 H2. unfold slice. now rewrite (proj2 (Nat.leb_le a b)), (proj2 (Nat.leb_le b _)) by auto. Qed.
Lemma slice_out : forall A (l : list A) a b, (List.length l < b)%nat -> slice l a b = Panic.
Proof. intros A l a b H. unfold slice. rewrite (proj2 (Nat.leb_gt b _)) by auto. now rewrite andb_false_r. Qed.

Lemma c13_short : forall b, (List.length b < 8)%nat -> request_from_bytes b = Panic.
Proof.
  intros b L. unfold request_from_bytes.
  destruct (le_lt_dec 4 (List.length b)); [rewrite slice_in by lia|now rewrite slice_out].
  cbn [obind]. now rewrite slice_out.
Qed.

(** ** C14 *)

Lemma c14_new : forall h pid, message_as_bytes (new_handshake h pid) = handshake_layout h pid /\
  List.length (message_as_bytes (new_handshake h pid)) = (28 + List.length h + List.length pid)%nat.
Proof.
  intros h pid. split; [reflexivity|].
  unfold message_as_bytes, new_handshake, message_new, handshake_new, handshake_as_bytes.
  cbn [msg_content hs_protocol_identifier_length hs_protocol_identifier hs_reserved_bytes hs_info_hash hs_peer_id].
  rewrite !app_length. cbn. lia.
Qed.


Lemma firstn_skipn_add : forall A (l : list A) a b, firstn a l ++ firstn b (skipn a l) = firstn (a + b) l.
Proof.
  intros A l a b. rewrite <- (firstn_skipn a (firstn (a + b) l)).
  rewrite firstn_firstn, skipn_firstn_comm. f_equal; f_equal; lia.
Qed.

Lemma c14_parse : forall b, (68 <= List.length b)%nat ->
  exists m, handshake_from_bytes b = Ret m /\ hs_get_info_hash m = firstn 20 (skipn 28 b) /\
    hs_peer_id m = firstn 20 (skipn 48 b) /\ handshake_as_bytes m = firstn 68 b.
Proof.
  intros b L. destruct b as [|x t] eqn:Eb; [cbn in L; lia|].
  unfold handshake_from_bytes. cbn [index nth_error obind].
  rewrite !slice_in by lia. cbn [obind]. eexists. split; [reflexivity|].
  unfold handshake_as_bytes.
  cbn [hs_get_info_hash hs_protocol_identifier_length hs_protocol_identifier hs_reserved_bytes hs_info_hash hs_peer_id].
  split; [reflexivity|]. split; [reflexivity|]. rewrite <- Eb. rewrite <- Eb in L.
  change [x] with (firstn 1 (x :: t)). rewrite <- Eb.
  cbn [Nat.sub]. rewrite app_assoc, firstn_skipn_add, app_assoc. cbn [Nat.add].
  rewrite (firstn_skipn_add _ b 20 8), app_assoc. cbn [Nat.add].
  rewrite (firstn_skipn_add _ b 28 20). cbn [Nat.add]. now rewrite (firstn_skipn_add _ b 48 20).
Qed.

Lemma c14_short : forall b, (List.length b < 68)%nat -> handshake_from_bytes b = Panic.
Proof.
  intros b L. unfold handshake_from_bytes, index.
  destruct (nth_error b 0); cbn [obind]; [|reflexivity].
  destruct (le_lt_dec 20 (List.length b)); [rewrite slice_in by lia; cbn [obind]|now rewrite slice_out].
  destruct (le_lt_dec 28 (List.length b)); [rewrite slice_in by lia; cbn [obind]|now rewrite slice_out].
  destruct (le_lt_dec 48 (List.length b)); [rewrite slice_in by lia; cbn [obind]|now rewrite slice_out].
  now rewrite slice_out.
Qed.

(** ** C15 *)

Lemma decimal_len_bound : forall n, (n < 2 ^ 64)%N -> (lenN (decimal n) <= 20)%N.
Proof.
  intros n L. destruct (decimal_canon n) as [C E]. destruct (decimal n) as [|d t] eqn:D; [cbn; lia|].
  destruct t as [|x t]; [cbn; lia|].
  assert (G := canon_numeral_ge d (x :: t) C ltac:(discriminate)). rewrite E in G.
  destruct (N.leb_spec (lenN (x :: t)) 19) as [?|B]; [rewrite lenN_cons; lia|].
  assert (P : (10 ^ 20 <= 10 ^ lenN (x :: t))%N) by (apply N.pow_le_mono_r; lia).
  assert (Q : (2 ^ 64 < 10 ^ 20)%N) by reflexivity. lia.
Qed.

Lemma metadata_request_ok : forall i, (i < 2 ^ 64)%N ->
  decodable text (metadata_request i) /\ distinct_keys (metadata_request i).
Proof.
  intros i L. split.
  - apply DDict.
    + constructor; [split; reflexivity|]. constructor; [split; reflexivity|]. constructor.
    + constructor; [apply DInt; reflexivity|]. constructor; [now apply DInt|]. constructor.
  - constructor; cbn [map fst].
    + constructor; [|constructor; [intros []|constructor]]. intros [E|[]]. discriminate.
    + repeat constructor.
Qed.

Lemma metadata_request_bytes : forall i, benc (metadata_request i)
  = s2b "d8:msg_typei0e5:piecei" ++ decimal i ++ s2b "ee".
Proof.
  intros i. unfold metadata_request. cbn [benc map List.concat fst snd].
  rewrite <- !app_assoc. reflexivity.
Qed.

Lemma metadata_map : forall i,
  enc_map enc_usize (hm_insert (hm_insert [] (s2b "piece") i) (s2b "msg_type") 0%N) = benc (metadata_request i).
Proof.
  intros i. change (hm_insert (hm_insert [] (s2b "piece") i) (s2b "msg_type") 0%N)
    with [(s2b "piece", i); (s2b "msg_type", 0%N)].
  rewrite enc_map_form.
  change (sort_by_key [(s2b "piece", i); (s2b "msg_type", 0%N)]) with [(s2b "msg_type", 0%N); (s2b "piece", i)].
  unfold metadata_request. cbn [map List.concat fst snd benc]. rewrite !enc_usize_canonical. reflexivity.
Qed.

Lemma c15 : forall e i, (i < 2 ^ 64)%N -> exists m, new_metadata e i = Ret m /\
  message_as_bytes m = frame 20 (e :: benc (metadata_request i)).
Proof.
  intros e i L. destruct (metadata_request_ok i L) as [D K].
  unfold new_metadata. rewrite dec_decimal, <- metadata_request_bytes.
  unfold extension_from_bytes, slice_from. cbn [app List.length].
  rewrite (proj2 (Nat.leb_le 1 _)) by lia. cbn [obind skipn].
  pose proof (c01 _ [] D K) as C. rewrite app_nil_r in C. rewrite C. cbn [obind].
  cbn [index nth_error obind]. rewrite (proj2 (Nat.leb_le _ _)) by lia. cbn [obind].
  eexists. split; [reflexivity|].
  unfold message_as_bytes, message_new. cbn [msg_content msg_length msg_id].
  unfold frame. cbn [app List.length]. rewrite app_nil_r || idtac.
  assert (B : (lenN (benc (metadata_request i)) <= 60)%N).
  { rewrite metadata_request_bytes, !lenN_app. pose proof (decimal_len_bound i L).
    change (lenN (s2b "d8:msg_typei0e5:piecei")) with 22%N. change (lenN (s2b "ee")) with 2%N. lia. }
  unfold as_u32, two32. rewrite N.mod_small by lia.
  rewrite be32_spec by (change (2 ^ 32)%N with 4294967296%N; lia).
  do 2 f_equal; [unfold lenN; lia|].
  f_equal. unfold extension_as_bytes. cbn [ex_id ex_piece ex_msg_type].
  change (get_integer_from_dict (as_metainfo (metadata_request i)) (s2b "piece")) with (@Ok N metainfo_error i).
  change (get_integer_from_dict (as_metainfo (metadata_request i)) (s2b "msg_type")) with (@Ok N metainfo_error 0%N).
  cbn [res_ok]. apply f_equal. now rewrite metadata_map.
Qed.

(** ** C16 *)

Lemma c16_interested : message_as_bytes new_interested = frame 2 [].
Proof. reflexivity. Qed.

Lemma c16_request : forall pi off len, (pi < 2 ^ 32)%N -> (off < 2 ^ 32)%N -> (len < 2 ^ 32)%N ->
  message_as_bytes (new_request pi off len)
  = frame 6 (big_endian 4 pi ++ big_endian 4 off ++ big_endian 4 len).
Proof. intros. rewrite c13_request by auto. reflexivity. Qed.

Lemma c16_extension_handshake : metadata_handshake_bytes = extension_handshake.
Proof. vm_compute. reflexivity. Qed.

Lemma be_inj : forall k a b, (a < 256 ^ N.of_nat k)%N -> (b < 256 ^ N.of_nat k)%N ->
  big_endian k a = big_endian k b -> a = b.
Proof. intros k a b La Lb H. rewrite <- (be_value k a), <- (be_value k b) by auto. now rewrite H. Qed.

Lemma app_inj_len : forall A (a b c d : list A), List.length a = List.length b -> a ++ c = b ++ d -> a = b /\ c = d.
Proof.
  induction a as [|x a IH]; intros [|y b] c d L H; cbn in *; try lia; auto.
  injection H as -> H. destruct (IH b c d ltac:(lia) H) as [-> ->]. auto.
Qed.

Lemma frame_prefix : forall m m' x y, frame_ok m -> frame_ok m' ->
  frame (fst m) (snd m) ++ x = frame (fst m') (snd m') ++ y -> m = m' /\ x = y.
Proof.
  intros [i b] [i' b'] x y [_ L] [_ L'] H. cbn [fst snd] in *. unfold frame in H. rewrite <- !app_assoc in H.
  apply app_inj_len in H as [E H]; [|now rewrite !be_length].
  change (256 ^ N.of_nat 4)%N with 4294967296%N in *. change (2 ^ 32)%N with 4294967296%N in *.
  apply be_inj in E; [|change (256 ^ N.of_nat 4)%N with 4294967296%N; lia ..].
  cbn [app] in H. injection H as -> H.
  apply app_inj_len in H as [-> ->]; [auto|lia].
Qed.

Lemma c16_sequence : forall l l', Forall frame_ok l -> Forall frame_ok l' ->
  List.concat (map (fun m => frame (fst m) (snd m)) l) = List.concat (map (fun m => frame (fst m) (snd m)) l') ->
  l = l'.
Proof.
  assert (P : forall m x, frame (fst m) (snd m) ++ x <> []).
  { intros m x E. apply (f_equal (@List.length N)) in E. unfold frame in E.
    rewrite !app_length, be_length in E. cbn in E. lia. }
  induction l as [|m l IH]; intros [|m' l'] F F' H; cbn [map List.concat] in H; auto.
  - symmetry in H. now apply P in H.
  - now apply P in H.
  - inversion F; inversion F'; subst. apply frame_prefix in H as [-> H]; auto. f_equal. auto.
Qed.

(** ** C17 *)

Lemma extension_cases : forall b t,
  extension_from_bytes (b :: t) = match decode t with
                                  | Panic => Panic
                                  | OutOfFuel => OutOfFuel
                                  | Ret (Err _) => Ret (Err tt)
                                  | Ret (Ok _) => extension_from_bytes (b :: t)
                                  end /\
  (forall c n, decode t = Ret (Ok (c, n)) -> exists e, extension_from_bytes (b :: t) = Ret (Ok e) /\
     ex_id e = b /\ ex_data e = skipn n t).
Proof.
  intros b t.
  assert (S1 : slice_from (b :: t) 1 = Ret t) by reflexivity.
  split.
  - unfold extension_from_bytes at 1. rewrite S1. cbn [obind].
    destruct (decode t) as [[[c n]|e]| |] eqn:D; cbn [obind]; try reflexivity.
    unfold extension_from_bytes. rewrite S1. cbn [obind]. rewrite D. reflexivity.
  - intros c n E. unfold extension_from_bytes. rewrite S1. cbn [obind]. rewrite E. cbn [obind index nth_error].
    pose proof (decode_locality t c n E) as [L _].
    unfold slice_from. rewrite (proj2 (Nat.leb_le _ _)) by (cbn [List.length]; lia). cbn [obind].
    eexists. split; [reflexivity|]. cbn [ex_id ex_data]. split; [reflexivity|].
    now rewrite Nat.add_1_r.
Qed.

Lemma c17 : forall body len id,
  (new_raw body len id = Panic <->
     ((id = 6 \/ id = 7)%N /\ (List.length body < 8)%nat) \/
     (id = 19%N /\ (List.length body < 68)%nat) \/
     (id = 20%N /\ (body = [] \/ decode (tl body) = Panic))) /\
  (new_raw body len id = OutOfFuel <-> id = 20%N /\ body <> [] /\ decode (tl body) = OutOfFuel) /\
  (new_raw body len id = Ret (Err tt) <-> id = 20%N /\ body <> [] /\ exists e, decode (tl body) = Ret (Err e)) /\
  (forall m, new_raw body len id = Ret (Ok m) -> msg_id m = id /\ msg_length m = len).
Proof.
  intros body len id. unfold new_raw.
  destruct (N.eqb_spec id 2) as [->|N2].
  { repeat split; try discriminate; try (intros [? ?]; lia).
    - intros [[? ?]|[[? ?]|[? ?]]]; lia.
    - now injection H as <-.
    - now injection H as <-. }
  destruct (N.eqb_spec id 5) as [->|N5].
  { repeat split; try discriminate; try (intros [? ?]; lia).
    - intros [[? ?]|[[? ?]|[? ?]]]; lia.
    - now injection H as <-.
    - now injection H as <-. }
  destruct ((id =? 7)%N || (id =? 6)%N) eqn:E67.
  { assert (I67 : (id = 6 \/ id = 7)%N) by lia.
    destruct (le_lt_dec 8 (List.length body)) as [L|L].
    - unfold request_from_bytes. rewrite !slice_in by lia. cbn [obind].
      unfold slice_from. rewrite (proj2 (Nat.leb_le _ _)) by lia. cbn [obind].
      repeat split; try discriminate; try (intros [? ?]; lia).
      + intros [[? ?]|[[? ?]|[? ?]]]; lia.
      + now injection H as <-.
      + now injection H as <-.
    - rewrite c13_short by auto. cbn [obind].
      repeat split; try discriminate; try (intros [? ?]; lia). intros _. auto. }
  assert (N67 : ~ (id = 6 \/ id = 7)%N) by lia.
  destruct (N.eqb_spec id 20) as [->|N20].
  { destruct body as [|b t].
    - cbn [extension_from_bytes slice_from List.length Nat.leb obind orbind].
      repeat split; try discriminate; try (intros (? & H & ?); now elim H). auto 6.
    - cbn [tl]. destruct (extension_cases b t) as [E1 E2].
      destruct (decode t) as [[[c n]|e]| |] eqn:D.
      + destruct (E2 c n eq_refl) as (e & -> & _). cbn [orbind].
        repeat split; try discriminate.
        * intros [[? ?]|[[? ?]|[_ [?|?]]]]; [lia|lia|discriminate|discriminate].
        * intros (_ & _ & ?); discriminate.
        * intros (_ & _ & ? & ?); discriminate.
        * now injection H as <-.
        * now injection H as <-.
      + rewrite E1. cbn [orbind]. repeat split; try discriminate; eauto.
        * intros [[? ?]|[[? ?]|[_ [?|?]]]]; [lia|lia|discriminate|discriminate].
        * intros (_ & _ & ?); discriminate.
      + rewrite E1. cbn [orbind]. repeat split; try discriminate; auto.
        * intros (_ & _ & ?); discriminate.
        * intros (_ & _ & ? & ?); discriminate.
      + rewrite E1. cbn [orbind]. repeat split; try discriminate; auto.
        * intros [[? ?]|[[? ?]|[_ [?|?]]]]; [lia|lia|discriminate|discriminate].
        * intros (_ & _ & ? & ?); discriminate. }
  destruct (N.eqb_spec id 19) as [->|N19].
  { destruct (le_lt_dec 68 (List.length body)) as [L|L].
    - destruct (c14_parse body L) as (h & -> & _). cbn [obind].
      repeat split; try discriminate; try (intros [? ?]; lia).
      + intros [[? ?]|[[? ?]|[? ?]]]; lia.
      + now injection H as <-.
      + now injection H as <-.
    - rewrite c14_short by auto. cbn [obind].
      repeat split; try discriminate; try (intros [? ?]; lia). auto. }
  repeat split; try discriminate; try (intros [? ?]; lia).
  - intros [[? ?]|[[? ?]|[? ?]]]; lia.
  - now injection H as <-.
  - now injection H as <-.
Qed.

Lemma c17_content : forall body len id m, new_raw body len id = Ret (Ok m) ->
  (id = 5%N -> exists b, msg_content m = CBitfield b /\ get_bitfield b = body) /\
  ((id = 6 \/ id = 7)%N -> exists r, msg_content m = CRequest r /\ request_from_bytes body = Ret r) /\
  (id = 19%N -> exists h, msg_content m = CHandshake h /\ handshake_from_bytes body = Ret h) /\
  (id = 20%N -> exists e, msg_content m = CExtension e /\ extension_from_bytes body = Ret (Ok e)) /\
  (~ In id [5; 6; 7; 19; 20]%N -> get_content_data m = [] /\ is_request_message m = false /\
     is_extension_data_message m = false /\
     (forall b, msg_content m <> CBitfield b) /\ (forall h, msg_content m <> CHandshake h)).
Proof.
  intros body len id m H. unfold new_raw in H.
  destruct (N.eqb_spec id 2) as [->|N2].
  { injection H as <-. repeat split; try lia; try discriminate. }
  destruct (N.eqb_spec id 5) as [->|N5].
  { injection H as <-. split; [eexists; split; reflexivity|]. repeat split; try lia; exfalso; apply H; cbn; auto. }
  destruct ((id =? 7)%N || (id =? 6)%N) eqn:E67.
  { assert (I67 : (id = 6 \/ id = 7)%N) by lia.
    destruct (request_from_bytes body) as [r| |] eqn:R; try discriminate. cbn [obind] in H. injection H as <-.
    split; [lia|]. split; [intros _; eexists; split; reflexivity|].
    repeat split; try lia; exfalso; apply H; cbn; destruct I67; auto. }
  destruct (N.eqb_spec id 20) as [->|N20].
  { destruct (extension_from_bytes body) as [[e|]| |] eqn:R; try discriminate. cbn [orbind] in H. injection H as <-.
    split; [lia|]. split; [lia|]. split; [lia|]. split; [intros _; eexists; split; reflexivity|].
    intros H. exfalso. apply H. cbn. auto 6. }
  destruct (N.eqb_spec id 19) as [->|N19].
  { destruct (handshake_from_bytes body) as [h| |] eqn:R; try discriminate. cbn [obind] in H. injection H as <-.
    split; [lia|]. split; [lia|]. split; [intros _; eexists; split; reflexivity|]. split; [lia|].
    intros H. exfalso. apply H. cbn. auto 6. }
  injection H as <-. repeat split; try lia; try discriminate.
Qed.
