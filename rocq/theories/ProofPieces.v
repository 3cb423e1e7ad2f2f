(** ProofPieces: proofs of C28, C29 and C38 *)
From Verif Require Import Base ModelPeer SpecWriter SpecPieces ProofBase ProofWriter.

Lemma step_by_count : forall n k, (0 < k)%N -> step_by_len n k = Ret (piece_count n k).
Proof.
  intros n k K. unfold step_by_len, piece_count. destruct (N.eqb_spec k 0) as [|_]; [lia|].
  destruct (N.eqb_spec n 0) as [->|N].
  - f_equal. symmetry. apply N.div_small. lia.
  - f_equal. replace (n + k - 1)%N with (n - 1 + 1 * k)%N by lia. rewrite N.div_add by lia. reflexivity.
Qed.

Lemma count_bounds : forall n k, (0 < k)%N ->
  (n <= piece_count n k * k)%N /\ (forall m, n <= m * k -> piece_count n k <= m)%N /\
  (forall i, i < piece_count n k -> i * k < n)%N.
Proof.
  intros n k K. unfold piece_count.
  pose proof (N.mul_div_le (n + k - 1) k ltac:(lia)). pose proof (N.mul_succ_div_gt (n + k - 1) k ltac:(lia)).
  set (c := ((n + k - 1) / k)%N) in *. repeat split; intros; nia.
Qed.

Lemma real_length : forall p plen i total, (0 < plen)%N -> (i < piece_count total plen)%N -> (total + plen <= 2 ^ 64)%N ->
  real_piece_length p plen i total = Ret (N.min plen (total - i * plen)).
Proof.
  intros p plen i total P H O. destruct (count_bounds total plen P) as (_ & _ & B). specialize (B i H).
  unfold real_piece_length. assert (i < 2 ^ 64 - 1)%N by nia.
  rewrite uadd_ok by lia. cbn [obind]. 
  destruct (N.eq_dec (plen * (i + 1)) (2 ^ 64)) as [E|E].
  { exfalso. nia. }
  rewrite umul_ok by nia. cbn [obind].
  destruct (N.ltb_spec total (plen * (i + 1))) as [L|L].
  - rewrite umul_ok by nia. cbn [obind]. rewrite usub_ok by nia. f_equal. nia.
  - f_equal. nia.
Qed.

Definition piece_lengths (plen total : N) : list N :=
  map (fun i => N.min plen (total - N.of_nat i * plen)) (seq 0 (N.to_nat (piece_count total plen))).

Lemma sumN_app : forall a b, sumN (a ++ b) = (sumN a + sumN b)%N.
Proof. induction a; intros; cbn [sumN fold_right app]; [reflexivity|]. unfold sumN in *. rewrite IHa. lia. Qed.

Lemma sum_lengths : forall plen total k, 
  sumN (map (fun i => N.min plen (total - N.of_nat i * plen)) (seq 0 k)) = N.min (N.of_nat k * plen) total.
Proof.
  intros plen total. induction k as [|k IH]; [cbn; lia|].
  rewrite seq_S, map_app, sumN_app, IH. cbn [map sumN fold_right Nat.add]. nia.
Qed.

Lemma c28 : forall p total plen, (0 < plen)%N -> (total + plen <= 2 ^ 64)%N ->
  exists n lens, step_by_len total plen = Ret n /\ List.length lens = N.to_nat n /\
    (total <= n * plen)%N /\ (forall m, total <= m * plen -> n <= m)%N /\
    (forall i len, nth_error lens i = Some len ->
       real_piece_length p plen (N.of_nat i) total = Ret len /\ (1 <= len <= plen)%N /\
       (N.of_nat i + 1 < n -> len = plen)%N) /\
    sumN lens = total.
Proof.
  intros p total plen P O. exists (piece_count total plen), (piece_lengths plen total).
  destruct (count_bounds total plen P) as (B1 & B2 & B3).
  split; [now apply step_by_count|]. unfold piece_lengths. rewrite map_length, seq_length.
  split; [auto|]. split; [auto|]. split; [auto|]. split.
  - intros i len H. assert (I : (i < N.to_nat (piece_count total plen))%nat).
    { rewrite <- (seq_length (N.to_nat (piece_count total plen)) 0), <- (map_length (fun i => N.min plen (total - N.of_nat i * plen))).
      apply nth_error_Some. congruence. }
    rewrite nth_error_map in H. rewrite (nth_error_nth' _ 0%nat) in H by (rewrite seq_length; auto).
    rewrite seq_nth in H by auto. cbn [option_map Nat.add] in H. injection H as <-.
    split; [apply real_length; auto; lia|]. specialize (B3 (N.of_nat i) ltac:(lia)). split; [lia|].
    intros L. assert (M : ~ (total <= (N.of_nat i + 1) * plen)%N) by (intros Q; apply B2 in Q; lia). nia.
  - rewrite sum_lengths. lia.
Qed.

(** ** C29 *)

Lemma block_req : forall p i total plen b, (i < piece_count total plen)%N -> (0 < plen)%N ->
  (total + plen <= 2 ^ 64)%N -> (i < 2 ^ 32)%N -> (plen < 2 ^ 32)%N ->
  (b < piece_count (N.min plen (total - i * plen)) 16384)%N ->
  block_request p 16384 i total plen b = Ret (i, b * 16384, N.min (total - i * plen - b * 16384) 16384)%N.
Proof.
  intros p i total plen b I P O I32 P32 B.
  destruct (count_bounds total plen P) as (_ & _ & B3). specialize (B3 i I).
  destruct (count_bounds (N.min plen (total - i * plen)) 16384 ltac:(lia)) as (_ & _ & C3). specialize (C3 b B).
  unfold block_request. rewrite umul_ok by lia. cbn [obind]. rewrite umul_ok by lia. cbn [obind].
  unfold get_block_size. rewrite uadd_ok by nia. cbn [obind]. rewrite usub_ok by nia. cbn [obind].
  unfold as_u32. change two32 with (2 ^ 32)%N. rewrite !N.mod_small by lia. do 2 f_equal. lia.
Qed.

Lemma tiles_app : forall limit a b s m e, tiles limit a s m -> tiles limit b m e -> tiles limit (a ++ b) s e.
Proof.
  intros limit. induction a as [|[o l] a IH]; intros b s m e; cbn [tiles app]; [intros ->; auto|].
  intros (E & L & T) U. split; [auto|]. split; [auto|]. eapply IH; eauto.
Qed.

Lemma tiles_blocks : forall avail k, (N.of_nat k * 16384 < avail + 16384)%N ->
  tiles 16384 (map (fun b => (N.of_nat b * 16384, N.min (avail - N.of_nat b * 16384) 16384)%N) (seq 0 k))
    0 (N.min (N.of_nat k * 16384) avail).
Proof.
  intros avail. induction k as [|k IH]; intros H; [cbn; lia|].
  rewrite seq_S, map_app. apply (tiles_app _ _ _ _ (N.min (N.of_nat k * 16384) avail)).
  - apply IH. lia.
  - cbn [map tiles Nat.add]. repeat split; lia.
Qed.

Lemma c29 : forall p total plen n i len, (0 < plen)%N -> (total + plen <= 2 ^ 64)%N -> (plen < 2 ^ 32)%N -> (i < 2 ^ 32)%N ->
  step_by_len total plen = Ret n -> (i < n)%N -> real_piece_length p plen i total = Ret len ->
  exists reqs e, step_by_len len 16384 = Ret (N.of_nat (List.length reqs)) /\
    (forall b off l, nth_error reqs b = Some (off, l) ->
       block_request p 16384 i total plen (N.of_nat b) = Ret (i, off, l)) /\
    tiles 16384 reqs 0 e /\
    (e = len <-> plen mod 16384 = 0 \/ i = n - 1)%N /\ (len <= e /\ i * plen + e <= total)%N.
Proof.
  intros p total plen n i len P O P32 I32 N I R.
  rewrite step_by_count in N by auto. assert (Hn : n = piece_count total plen) by congruence. subst n. clear N.
  rewrite real_length in R by auto. assert (Hl : len = N.min plen (total - i * plen)) by congruence. subst len. clear R.
  destruct (count_bounds total plen P) as (A1 & A2 & A3). pose proof (A3 i I) as A4.
  set (len := N.min plen (total - i * plen)) in *.
  destruct (count_bounds len 16384 ltac:(lia)) as (C1 & C2 & C3).
  set (cap := piece_count len 16384) in *.
  set (avail := (total - i * plen)%N) in *.
  exists (map (fun b => (N.of_nat b * 16384, N.min (avail - N.of_nat b * 16384) 16384)%N) (seq 0 (N.to_nat cap))),
    (N.min (cap * 16384) avail).
  rewrite map_length, seq_length. split; [rewrite step_by_count by lia; f_equal; lia|]. split; [|split; [|split]].
  - intros b off l H.
    assert (B : (b < N.to_nat cap)%nat).
    { rewrite <- (seq_length (N.to_nat cap) 0), <- (map_length (fun b => (N.of_nat b * 16384, N.min (avail - N.of_nat b * 16384) 16384)%N)).
      apply nth_error_Some. congruence. }
    rewrite nth_error_map in H. rewrite (nth_error_nth' _ 0%nat) in H by (rewrite seq_length; auto).
    rewrite seq_nth in H by auto. cbn [option_map Nat.add] in H.
    assert (E1 : off = (N.of_nat b * 16384)%N) by congruence.
    assert (E2 : l = N.min (avail - N.of_nat b * 16384) 16384) by congruence. subst off l.
    apply block_req; auto. fold avail len cap. lia.
  - replace (cap * 16384)%N with (N.of_nat (N.to_nat cap) * 16384)%N by lia. apply tiles_blocks.
    destruct (N.eq_dec cap 0) as [Z|Z]; [lia|]. specialize (C3 (cap - 1)%N ltac:(lia)). lia.
  - assert (LAST : i = (piece_count total plen - 1)%N <-> (avail <= plen)%N).
    { unfold avail. split; intros Q; [nia|]. assert (total <= (i + 1) * plen)%N by nia. apply A2 in H. lia. }
    rewrite LAST. assert (CP : (len <= cap * 16384)%N) by auto.
    assert (CM : (cap * 16384 < len + 16384)%N).
    { destruct (N.eq_dec cap 0) as [Z|Z]; [lia|]. specialize (C3 (cap - 1)%N ltac:(lia)). lia. }
    pose proof (N.div_mod plen 16384 ltac:(lia)). pose proof (N.mod_lt plen 16384 ltac:(lia)).
    unfold len in *. split; intros Q; lia.
  - unfold len, avail in *. lia.
Qed.

(** ** C38 *)

Lemma run_pool_history : forall ops q rs q2, run_pool q ops = (rs, q2) -> q ++ puts ops = got rs ++ q2.
Proof.
  induction ops as [|[x|] t IH]; intros q rs q2 H; cbn [run_pool] in H.
  - injection H as <- <-. cbn. apply app_nil_r.
  - apply IH in H. unfold pool_insert in H. cbn [puts flat_map]. rewrite <- app_assoc in H. exact H.
  - destruct q as [|y q]; cbn [pool_pop] in H.
    + destruct (run_pool [] t) as [rs' q'] eqn:E. injection H as <- <-. apply IH in E. cbn [puts got flat_map app]. exact E.
    + destruct (run_pool q t) as [rs' q'] eqn:E. injection H as <- <-. apply IH in E. cbn [puts got flat_map app].
      cbn [app]. f_equal. exact E.
Qed.

Lemma run_pool_app : forall a b q, run_pool q (a ++ b) =
  let (r1, q1) := run_pool q a in let (r2, q2) := run_pool q1 b in (r1 ++ r2, q2).
Proof.
  induction a as [|[x|] t IH]; intros b q; cbn [run_pool app].
  - destruct (run_pool q b); reflexivity.
  - apply IH.
  - destruct (pool_pop q) as [r q1]. rewrite IH. destruct (run_pool q1 t) as [r1 q2]. destruct (run_pool q2 b). reflexivity.
Qed.

Lemma c38 : forall n ops rs q, run_pool (pool_new n) ops = (rs, q) ->
  numbers n ++ puts ops = got rs ++ q /\
  (forall ops1 ops2, ops = ops1 ++ Take :: ops2 ->
     exists rs1 q1 r rs2, run_pool (pool_new n) ops1 = (rs1, q1) /\ rs = rs1 ++ r :: rs2 /\
       (r = None <-> got rs1 = numbers n ++ puts ops1) /\
       (forall x, r = Some x -> exists l, numbers n ++ puts ops1 = got rs1 ++ x :: l)).
Proof.
  intros n ops rs q H. split; [apply run_pool_history in H; exact H|].
  intros ops1 ops2 ->. rewrite run_pool_app in H. destruct (run_pool (pool_new n) ops1) as [rs1 q1] eqn:E.
  cbn [run_pool] in H. destruct (pool_pop q1) as [r q2] eqn:Ep. destruct (run_pool q2 ops2) as [rs2 q3].
  injection H as <- <-. exists rs1, q1, r, rs2. split; [auto|]. split; [auto|].
  apply run_pool_history in E. change (pool_new n) with (numbers n) in E. rewrite E.
  destruct q1 as [|y q1]; cbn in Ep; injection Ep as <- <-.
  - rewrite app_nil_r. split; [tauto|discriminate].
  - split.
    + split; [discriminate|]. intros Z. apply (f_equal (@List.length N)) in Z. rewrite app_length in Z. cbn in Z. lia.
    + intros x Z. injection Z as <-. eauto.
Qed.

Lemma c28_piece : forall p T plen i, (0 < plen)%N -> (i < piece_count (lenN T) plen)%N -> (lenN T + plen <= 2 ^ 64)%N ->
  real_piece_length p plen i (lenN T) = Ret (lenN (torrent_piece T plen i)).
Proof.
  intros p T plen i P H O. rewrite real_length by auto. f_equal. symmetry. now apply piece_length.
Qed.
