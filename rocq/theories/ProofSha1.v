(** ProofSha1: proofs for PropSha1 *)
From Coq Require Import Lia.
From Verif Require Import Base ModelBencode ModelMessages ModelTorrent ModelSha1 ProofBase SpecMessages SpecTorrent ProofMessages ProofWriter ProofPeer SpecSha1.

Lemma be_bytes_length : forall k n, List.length (be_bytes k n) = k.
Proof. induction k as [|k IH]; intros n; [auto|]. cbn [be_bytes]. rewrite app_length, IH. cbn. lia. Qed.

Lemma be_bytes_ok : forall k n, bytes_ok (be_bytes k n).
Proof.
  induction k as [|k IH]; intros n; [constructor|]. cbn [be_bytes]. apply Forall_app. split; [apply IH|].
  constructor; [|constructor]. unfold byte_ok. apply N.mod_lt. discriminate.
Qed.

Lemma digest_length : forall m, List.length (sha1 m) = 20%nat.
Proof. intros m. unfold sha1. rewrite !app_length, !be_bytes_length. auto. Qed.
Lemma digest_ok : forall m, bytes_ok (sha1 m).
Proof. intros m. unfold sha1. do 4 (apply Forall_app; split; [apply be_bytes_ok|]). apply be_bytes_ok. Qed.

Lemma pad_blocks : forall m, exists n, List.length (pad m) = (64 * n)%nat /\ (List.length m < 64 * n)%nat.
Proof.
  intros m. unfold pad. rewrite !app_length, repeat_length, be_bytes_length. cbn [List.length].
  assert (H : exists q, (lenN m + 9 + (119 - lenN m mod 64) mod 64 = 64 * q)%N).
  { exists ((lenN m + 9 + (119 - lenN m mod 64) mod 64) / 64)%N. lia. }
  destruct H as (q & H). exists (N.to_nat q). unfold pad_zeros. unfold lenN in *. lia.
Qed.

Lemma be_bytes_inj : forall k a b, (a < 256 ^ N.of_nat k)%N -> (b < 256 ^ N.of_nat k)%N -> be_bytes k a = be_bytes k b -> a = b.
Proof.
  induction k as [|k IH]; intros a b A B E; [cbn in A, B; lia|]. cbn [be_bytes] in E.
  apply app_inj_tail in E as [E1 E2]. rewrite Nat2N.inj_succ, N.pow_succ_r' in A, B.
  apply IH in E1; [|apply N.div_lt_upper_bound; lia..]. lia.
Qed.

Lemma pad_inj : forall m m', (8 * lenN m < 2 ^ 64)%N -> (8 * lenN m' < 2 ^ 64)%N -> pad m = pad m' -> m = m'.
Proof.
  intros m m' L L' E. unfold pad in E. rewrite !app_assoc in E.
  assert (S : forall (a b c d : bytes), List.length c = List.length d -> a ++ c = b ++ d -> a = b /\ c = d).
  { induction a as [|x a IH]; intros [|y b] c d Q X; cbn [app] in X; auto.
    - exfalso. rewrite X in Q. cbn in Q. rewrite app_length in Q. lia.
    - exfalso. rewrite <- X in Q. cbn in Q. rewrite app_length in Q. lia.
    - injection X as -> X. destruct (IH _ _ _ Q X) as [-> ->]. auto. }
  apply S in E as [E1 E2]; [|rewrite !be_bytes_length; auto].
  apply be_bytes_inj in E2; [|exact L|exact L']. assert (LE : lenN m = lenN m') by lia.
  rewrite LE in E1. apply app_inv_tail in E1. apply app_inv_tail in E1. auto.
Qed.

Lemma words_length : forall n l, List.length l = (4 * n)%nat -> List.length (words l) = n.
Proof.
  induction n as [|n IH]; intros l L; [destruct l; [auto|discriminate]|].
  do 4 (destruct l as [|? l]; [cbn in L; lia|]). cbn [words List.length]. f_equal. apply IH. cbn in L. lia.
Qed.

Lemma c60_handshake : forall i pid, List.length pid = 20%nat ->
  List.length (message_as_bytes (new_handshake (compute_info_hash sha1 i) pid)) = 68%nat.
Proof. intros i pid L. destruct (c14_new (compute_info_hash sha1 i) pid) as [_ E]. rewrite E. unfold compute_info_hash. rewrite digest_length, L. auto. Qed.

(** ** Agreement with the standard *)

Lemma from_bits_lt : forall n g, (from_bits n g < 2 ^ N.of_nat n)%N.
Proof.
  induction n as [|n IH]; intros g; [cbn; lia|]. cbn [from_bits]. rewrite Nat2N.inj_succ, N.pow_succ_r'.
  specialize (IH (fun k => g (S k))). destruct (g 0%nat); cbn [N.b2n]; lia.
Qed.
Lemma from_bits_bit : forall n g k, (k < n)%nat -> N.testbit (from_bits n g) (N.of_nat k) = g k.
Proof.
  induction n as [|n IH]; intros g k L; [lia|]. cbn [from_bits]. destruct k as [|k].
  - apply N.add_b2n_double_bit0.
  - rewrite Nat2N.inj_succ, N.testbit_succ_r_div2, N.div2_div by lia. rewrite N.add_b2n_double_div2. apply (IH (fun k => g (S k))). lia.
Qed.
Lemma small_bits : forall n k j, (n < 2 ^ k)%N -> (k <= j)%N -> N.testbit n j = false.
Proof. intros n k j L G. rewrite <- (N.mod_small n (2 ^ k)) by auto. apply N.mod_pow2_bits_high. auto. Qed.
Lemma word_eq : forall x g, (x < 2 ^ 32)%N -> (forall k, (k < 32)%nat -> N.testbit x (N.of_nat k) = g k) -> word_bits g = x.
Proof.
  intros x g L H. apply N.bits_inj. intros j. destruct (N.lt_ge_cases j 32) as [J|J].
  - rewrite <- (N2Nat.id j). unfold word_bits. rewrite from_bits_bit, H by lia. auto.
  - rewrite (small_bits x 32), (small_bits (word_bits g) 32); auto. apply from_bits_lt.
Qed.

Definition w_ok (x : N) : Prop := (x < 2 ^ 32)%N.
Lemma bits_lt : forall x, (forall j, (32 <= j)%N -> N.testbit x j = false) -> w_ok x.
Proof.
  intros x H. unfold w_ok. rewrite <- (N.mod_small x (2 ^ 32)) at 1; [apply N.mod_lt; discriminate|].
  destruct (N.eq_dec x 0) as [->|NZ]; [reflexivity|]. apply N.log2_lt_pow2; [lia|].
  destruct (N.lt_ge_cases (N.log2 x) 32) as [L|L]; [auto|]. pose proof (N.bit_log2 x NZ) as B. rewrite (H _ L) in B. discriminate.
Qed.
Lemma lxor_ok : forall x y, w_ok x -> w_ok y -> w_ok (N.lxor x y).
Proof. intros x y X Y. apply bits_lt. intros j J. rewrite N.lxor_spec, (small_bits x 32), (small_bits y 32); auto. Qed.
Lemma land_ok : forall x y, w_ok y -> w_ok (N.land x y).
Proof. intros x y Y. apply bits_lt. intros j J. rewrite N.land_spec, (small_bits y 32 j Y J). apply andb_false_r. Qed.
Lemma lor_ok : forall x y, w_ok x -> w_ok y -> w_ok (N.lor x y).
Proof. intros x y X Y. apply bits_lt. intros j J. rewrite N.lor_spec, (small_bits x 32), (small_bits y 32); auto. Qed.
Lemma w32_ok : forall x, w_ok (w32 x).
Proof. intros x. apply N.mod_lt. discriminate. Qed.

Lemma rotl_spec : forall k x, w_ok x -> (k <= 32)%N -> rotl k x = ROTL k x /\ w_ok (rotl k x).
Proof.
  intros k x X K. unfold rotl, ROTL, w32. change 4294967296%N with (2 ^ 32)%N. rewrite N.shiftl_mul_pow2, N.shiftr_div_pow2.
  assert (Q : (x / 2 ^ (32 - k) < 2 ^ k)%N).
  { apply N.div_lt_upper_bound; [apply N.pow_nonzero; discriminate|]. rewrite <- N.pow_add_r. replace (32 - k + k)%N with 32%N by lia. auto. }
  assert (D : N.land ((x * 2 ^ k) mod 2 ^ 32) (x / 2 ^ (32 - k)) = 0%N).
  { apply N.bits_inj. intros j. rewrite N.land_spec, N.bits_0. destruct (N.lt_ge_cases j k) as [J|J].
    - rewrite N.mod_pow2_bits_low by lia. rewrite N.mul_pow2_bits_low by auto. auto.
    - rewrite (small_bits (x / 2 ^ (32 - k)) k j Q J). apply andb_false_r. }
  split.
  - rewrite N.add_nocarry_lxor by auto. symmetry. apply N.lxor_lor. auto.
  - apply lor_ok; [apply N.mod_lt; discriminate|]. unfold w_ok. eapply N.lt_le_trans; [exact Q|]. apply N.pow_le_mono_r; [discriminate|auto].
Qed.

Lemma not32_bit : forall x j, (j < 32)%N -> N.testbit (not32 x) j = negb (N.testbit x j).
Proof.
  intros x j J. unfold not32. rewrite N.lxor_spec. change 4294967295%N with (N.ones 32). rewrite N.ones_spec_low by auto.
  destruct (N.testbit x j); reflexivity.
Qed.

Lemma round_f_spec : forall t x y z, (t < 80)%nat -> w_ok x -> w_ok y -> w_ok z ->
  round_f t x y z = f_t t x y z /\ w_ok (round_f t x y z).
Proof.
  intros t x y z T X Y Z. unfold round_f, f_t.
  assert (OK : w_ok (if (t <? 20)%nat then N.lor (N.land x y) (N.land (not32 x) z)
    else if (t <? 40)%nat then N.lxor x (N.lxor y z)
    else if (t <? 60)%nat then N.lor (N.land x y) (N.lor (N.land x z) (N.land y z)) else N.lxor x (N.lxor y z))).
  { destruct (t <? 20)%nat, (t <? 40)%nat, (t <? 60)%nat; repeat (apply lor_ok || apply land_ok || apply lxor_ok); auto. }
  split; [|exact OK].
  assert (C : forall q, (t / 20 = q)%nat -> (20 * q <= t < 20 * q + 20)%nat).
  { intros q <-. pose proof (Nat.div_mod t 20 ltac:(discriminate)). pose proof (Nat.mod_upper_bound t 20 ltac:(discriminate)). lia. }
  symmetry. destruct (t / 20)%nat as [|[|[|[|q]]]] eqn:E; specialize (C _ eq_refl).
  - rewrite (proj2 (Nat.ltb_lt t 20)) in * by lia. apply word_eq; [exact OK|]. intros k K.
    rewrite N.lor_spec, !N.land_spec, not32_bit by lia. unfold bit_of.
    destruct (N.testbit x (N.of_nat k)), (N.testbit y (N.of_nat k)), (N.testbit z (N.of_nat k)); reflexivity.
  - rewrite (proj2 (Nat.ltb_ge t 20)), (proj2 (Nat.ltb_lt t 40)) in * by lia. apply word_eq; [exact OK|]. intros k K.
    rewrite !N.lxor_spec. reflexivity.
  - rewrite (proj2 (Nat.ltb_ge t 20)), (proj2 (Nat.ltb_ge t 40)), (proj2 (Nat.ltb_lt t 60)) in * by lia. apply word_eq; [exact OK|]. intros k K.
    rewrite !N.lor_spec, !N.land_spec. unfold bit_of.
    destruct (N.testbit x (N.of_nat k)), (N.testbit y (N.of_nat k)), (N.testbit z (N.of_nat k)); reflexivity.
  - rewrite (proj2 (Nat.ltb_ge t 20)), (proj2 (Nat.ltb_ge t 40)), (proj2 (Nat.ltb_ge t 60)) in * by lia. apply word_eq; [exact OK|]. intros k K.
    rewrite !N.lxor_spec. reflexivity.
  - lia.
Qed.

Lemma round_k_spec : forall t, (t < 80)%nat -> round_k t = K_t t.
Proof.
  intros t T. unfold round_k, K_t.
  assert (C : forall q, (t / 20 = q)%nat -> (20 * q <= t < 20 * q + 20)%nat).
  { intros q <-. pose proof (Nat.div_mod t 20 ltac:(discriminate)). pose proof (Nat.mod_upper_bound t 20 ltac:(discriminate)). lia. }
  destruct (t / 20)%nat as [|[|[|[|q]]]] eqn:E; specialize (C _ eq_refl).
  - rewrite (proj2 (Nat.ltb_lt t 20)) by lia. vm_compute. reflexivity.
  - rewrite (proj2 (Nat.ltb_ge t 20)), (proj2 (Nat.ltb_lt t 40)) by lia. vm_compute. reflexivity.
  - rewrite (proj2 (Nat.ltb_ge t 20)), (proj2 (Nat.ltb_ge t 40)), (proj2 (Nat.ltb_lt t 60)) by lia. vm_compute. reflexivity.
  - rewrite (proj2 (Nat.ltb_ge t 20)), (proj2 (Nat.ltb_ge t 40)), (proj2 (Nat.ltb_ge t 60)) by lia. vm_compute. reflexivity.
  - lia.
Qed.

(** The schedule. *)
Lemma W_f_enough : forall f g M t, (t < f)%nat -> (t < g)%nat -> W_f f M t = W_f g M t.
Proof.
  induction f as [|f IH]; intros g M t F G; [lia|]. destruct g as [|g]; [lia|]. cbn [W_f].
  destruct (Nat.ltb_spec t 16); [auto|].
  rewrite (IH g M (t - 3)%nat), (IH g M (t - 8)%nat), (IH g M (t - 14)%nat), (IH g M (t - 16)%nat) by lia. auto.
Qed.

Lemma words_nth : forall n l t, List.length l = (4 * n)%nat -> bytes_ok l -> (t < n)%nat ->
  nth_error (words l) t = Some (M_t l t) /\ w_ok (M_t l t).
Proof.
  induction n as [|n IH]; intros l t L OK T; [lia|].
  destruct l as [|a [|b [|c [|d l]]]]; cbn [List.length] in L; try lia.
  do 4 (inversion OK as [|? ? ? OK']; subst; clear OK; rename OK' into OK).
  destruct t as [|t].
  - cbn [words nth_error]. unfold M_t. change (4 * 0)%nat with 0%nat. cbn [skipn firstn big_endian_value List.length]. unfold byte_ok in *.
    change (N.of_nat 3) with 3%N. change (N.of_nat 2) with 2%N. change (N.of_nat 1) with 1%N. change (N.of_nat 0) with 0%N.
    change (256 ^ 3)%N with 16777216%N. change (256 ^ 2)%N with 65536%N. change (256 ^ 1)%N with 256%N. change (256 ^ 0)%N with 1%N.
    split; [apply (f_equal (@Some N)); lia|]. unfold w_ok. change (2 ^ 32)%N with 4294967296%N. lia.
  - cbn [words nth_error]. destruct (IH l t) as [E W]; [lia|auto|lia|]. unfold M_t in *.
    replace (4 * S t)%nat with (4 + 4 * t)%nat by lia. exact (conj E W).
Qed.

Lemma schedule_spec : forall n M acc t, (16 <= t)%nat -> acc = rev (map (W_t M) (seq 0 t)) -> (forall k, w_ok (M_t M k)) ->
  (forall k, (k < t)%nat -> w_ok (W_t M k)) ->
  schedule n acc = map (W_t M) (seq 0 (t + n)) /\ (forall k, (k < t + n)%nat -> w_ok (W_t M k)).
Proof.
  induction n as [|n IH]; intros M acc t T E OM OK.
  - cbn [schedule]. rewrite E, rev_involutive, Nat.add_0_r. auto.
  - cbn [schedule].
    assert (NT : forall j, (j < t)%nat -> nth j acc 0%N = W_t M (t - 1 - j)).
    { intros j J. rewrite E. rewrite rev_nth by (rewrite map_length, seq_length; auto). rewrite map_length, seq_length.
      rewrite (nth_indep _ 0%N (W_t M 0)) by (rewrite map_length, seq_length; lia). rewrite map_nth, seq_nth by lia. f_equal. lia. }
    rewrite !NT by lia.
    set (x := N.lxor (N.lxor (W_t M (t - 1 - 2)) (W_t M (t - 1 - 7))) (N.lxor (W_t M (t - 1 - 13)) (W_t M (t - 1 - 15)))).
    assert (X : w_ok x) by (unfold x; repeat apply lxor_ok; apply OK; lia).
    destruct (rotl_spec 1 x X) as [R1 R2]; [lia|].
    assert (WT : W_t M t = rotl 1 x).
    { rewrite R1. unfold W_t at 1. cbn [W_f]. rewrite (proj2 (Nat.ltb_ge t 16)) by lia. f_equal.
      apply word_eq; [exact X|]. intros k K. unfold x, bit_of. rewrite !N.lxor_spec. unfold W_t.
      replace (t - 1 - 2)%nat with (t - 3)%nat by lia. replace (t - 1 - 7)%nat with (t - 8)%nat by lia.
      replace (t - 1 - 13)%nat with (t - 14)%nat by lia. replace (t - 1 - 15)%nat with (t - 16)%nat by lia.
      rewrite (W_f_enough t (S (t - 3)) M (t - 3)), (W_f_enough t (S (t - 8)) M (t - 8)), (W_f_enough t (S (t - 14)) M (t - 14)),
        (W_f_enough t (S (t - 16)) M (t - 16)) by lia. reflexivity. }
    replace (t + S n)%nat with (S t + n)%nat by lia. apply IH; [lia| |auto|].
    + rewrite seq_S, map_app, rev_app_distr. cbn [map rev app]. rewrite Nat.add_0_l, WT, E. reflexivity.
    + intros k K. destruct (Nat.eq_dec k t) as [->|NE]; [rewrite WT; auto|apply OK; lia].
Qed.

(** Rounds. *)
Definition st_vars (s : hash_state) : vars := {| va := h0 s; vb := h1 s; vc := h2 s; vd := h3 s; ve := h4 s |}.
Definition st_ok (s : hash_state) : Prop := w_ok (h0 s) /\ w_ok (h1 s) /\ w_ok (h2 s) /\ w_ok (h3 s) /\ w_ok (h4 s).

Lemma add32_sum : forall a b c d e, add32 (add32 (add32 (add32 a b) c) d) e = w32 (a + b + c + d + e).
Proof.
  intros a b c d e. unfold add32, w32. change 4294967296%N with (2 ^ 32)%N.
  rewrite (N.add_mod_idemp_l (a + b) c), (N.add_mod_idemp_l (a + b + c) d), (N.add_mod_idemp_l (a + b + c + d) e) by discriminate. reflexivity.
Qed.

Lemma rounds_spec : forall n M H t s, (t + n <= 80)%nat -> st_ok s -> st_vars s = working M H t ->
  let s' := rounds t (map (W_t M) (seq t n)) s in st_ok s' /\ st_vars s' = working M H (t + n).
Proof.
  induction n as [|n IH]; intros M H t s T OK E; cbn [seq map rounds].
  - rewrite Nat.add_0_r. auto.
  - destruct OK as (O0 & O1 & O2 & O3 & O4).
    destruct (rotl_spec 5 (h0 s) O0) as [R5 R5'] ; [lia|]. destruct (rotl_spec 30 (h1 s) O1) as [R30 R30']; [lia|].
    destruct (round_f_spec t (h1 s) (h2 s) (h3 s)) as [RF RF']; [lia|auto..|].
    replace (t + S n)%nat with (S t + n)%nat by lia. apply IH; [lia| |].
    + unfold st_ok. cbn [h0 h1 h2 h3 h4]. split; [apply w32_ok|]. auto.
    + unfold st_vars. cbn [h0 h1 h2 h3 h4 working]. rewrite <- E. unfold st_vars. cbn [va vb vc vd ve].
      rewrite add32_sum, <- R5, <- R30, <- RF, <- round_k_spec by lia. reflexivity.
Qed.

Lemma block_spec : forall s b, st_ok s -> List.length b = 64%nat -> bytes_ok b ->
  st_ok (block s b) /\ st_vars (block s b) = next_hash b (st_vars s).
Proof.
  intros s b OK L B.
  assert (WM : words b = map (W_t b) (seq 0 16)).
  { apply nth_ext_error. intros k. destruct (Nat.lt_ge_cases k 16) as [K|K].
    - rewrite (proj1 (words_nth 16 b k L B K)). rewrite nth_error_map, (nth_error_nth' _ 0%nat) by (rewrite seq_length; auto).
      rewrite seq_nth by auto. cbn [option_map]. unfold W_t. cbn [W_f]. rewrite Nat.add_0_l, (proj2 (Nat.ltb_lt k 16)) by auto. reflexivity.
    - rewrite (proj2 (nth_error_None (words b) k)) by (rewrite (words_length 16) by auto; auto).
      rewrite (proj2 (nth_error_None (map (W_t b) (seq 0 16)) k)) by (rewrite map_length, seq_length; auto). auto. }
  assert (OM : forall k, w_ok (M_t b k)).
  { intros k. destruct (Nat.lt_ge_cases k 16) as [K|K]; [apply (words_nth 16 b k L B K)|].
    unfold M_t. rewrite skipn_all2 by lia. reflexivity. }
  destruct (schedule_spec 64 b (rev (words b)) 16) as [SC SO]; [lia|rewrite WM; auto|auto| |].
  { intros k K. unfold W_t. cbn [W_f]. rewrite (proj2 (Nat.ltb_lt k 16)) by auto. auto. }
  unfold block. rewrite SC. change (16 + 64)%nat with 80%nat.
  destruct (rounds_spec 80 b (st_vars s) 0 s) as [RO RV]; [lia|auto|reflexivity|]. cbn zeta in *. change (0 + 80)%nat with 80%nat in RV.
  set (r := rounds 0 (map (W_t b) (seq 0 80)) s) in *. clearbody r. split.
  - unfold st_ok. cbn [h0 h1 h2 h3 h4]. repeat split; apply w32_ok.
  - unfold next_hash. rewrite <- RV. unfold st_vars. cbn [h0 h1 h2 h3 h4 va vb vc vd ve]. unfold add32, w32. change 4294967296%N with (2 ^ 32)%N.
    rewrite (N.add_comm (h0 s)), (N.add_comm (h1 s)), (N.add_comm (h2 s)), (N.add_comm (h3 s)), (N.add_comm (h4 s)). reflexivity.
Qed.

Lemma firstn_snoc : forall A (l : list A) k x, nth_error l k = Some x -> firstn (S k) l = firstn k l ++ [x].
Proof.
  induction l as [|y l IH]; intros k x H; [destruct k; discriminate|]. destruct k as [|k]; [injection H as ->; reflexivity|].
  cbn [nth_error] in H. cbn [firstn app]. f_equal. exact (IH k x H).
Qed.

Lemma blocks_spec : forall n l s, List.length l = (64 * n)%nat -> bytes_ok l -> st_ok s -> st_vars s = H_0 ->
  forall k, (k <= n)%nat ->
  let s' := fold_left block (firstn k (chunks_exact 64 l)) s in st_ok s' /\ st_vars s' = H_n l k.
Proof.
  intros n l s L B OK E. induction k as [|k IH]; intros K.
  - cbn [firstn fold_left H_n]. auto.
  - destruct IH as [O V]; [lia|]. cbn zeta in *.
    assert (NK : nth_error (chunks_exact 64 l) k = Some (firstn 64 (skipn (64 * k) l))).
    { rewrite chunks_nth by lia. rewrite (proj2 (Nat.leb_le _ _)) by lia. auto. }
    rewrite (firstn_snoc _ _ _ _ NK), fold_left_app. cbn [fold_left H_n]. rewrite <- V. apply block_spec; [auto| |].
    + rewrite firstn_length, skipn_length. lia.
    + apply Forall_forall. intros x I. apply (proj1 (Forall_forall _ _) B). rewrite <- (firstn_skipn (64 * k) l). apply in_or_app. right.
      rewrite <- (firstn_skipn 64 (skipn (64 * k) l)). apply in_or_app. auto.
Qed.

Lemma be_bytes_big : forall k n, be_bytes k n = big_endian k n.
Proof. induction k as [|k IH]; intros n; cbn [be_bytes big_endian]; [auto|]. rewrite IH. auto. Qed.

Lemma c60_fips : forall m, bytes_ok m -> is_digest m (sha1 m).
Proof.
  intros m B. set (z := pad_zeros (lenN m)). exists z.
  assert (P : pad m = m ++ padding m z) by (unfold pad, padding; rewrite be_bytes_big; reflexivity).
  destruct (pad_blocks m) as (n & LN & _). exists n.
  assert (Z : ((119 - lenN m mod 64) mod 64 < 64)%N) by (apply N.mod_lt; discriminate).
  split; [|split; [|split]].
  - unfold z, pad_zeros. assert (E : ((lenN m + 1 + (119 - lenN m mod 64) mod 64) mod 64 = 56)%N) by lia. unfold lenN in *. lia.
  - unfold z, pad_zeros. lia.
  - rewrite <- P. auto.
  - rewrite <- P. unfold sha1, digest_of. rewrite !be_bytes_big.
    assert (BP : bytes_ok (pad m)).
    { unfold pad. apply Forall_app. split; [auto|]. apply Forall_app. split; [constructor; [reflexivity|constructor]|].
      apply Forall_app. split; [|apply be_bytes_ok]. apply Forall_forall. intros x I. apply repeat_spec in I as ->. reflexivity. }
    destruct (blocks_spec n (pad m) initial_hash LN BP) with (k := n) as [_ V]; [|vm_compute; reflexivity|lia|].
    + repeat split; vm_compute; reflexivity.
    + cbn zeta in V. rewrite firstn_all2 in V by (apply nth_error_None; rewrite chunks_nth by lia; rewrite (proj2 (Nat.leb_gt _ _)) by lia; reflexivity).
      rewrite <- V. reflexivity.
Qed.

Lemma digest_unique : forall m d d', is_digest m d -> is_digest m d' -> d = d'.
Proof.
  intros m d d' (z & n & E & L & N & ->) (z' & n' & E' & L' & N' & ->).
  assert (z = z') by lia. subst z'. assert (n = n') by lia. subst n'. reflexivity.
Qed.

Lemma c60_unique : forall m, bytes_ok m -> forall d, is_digest m d <-> d = sha1 m.
Proof.
  intros m B d. split; [|intros ->; apply c60_fips; auto]. intros H. eapply digest_unique; [exact H|apply c60_fips; auto].
Qed.
