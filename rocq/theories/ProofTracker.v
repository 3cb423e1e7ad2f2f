(** ProofTracker: proofs about src/tracker (C19-C23) *)
From Verif Require Import Base Utf8 SpecBencode SpecTorrent SpecMessages SpecTracker
  ModelBencode ModelTorrent ModelMessages ModelTracker ModelStream ModelPeer
  ProofBase ProofBencode ProofBencode2 ProofTorrent ProofMessages.

(** ** C19 *)

Lemma port_value : forall p1 p0, (p1 < 256)%N -> (p0 < 256)%N ->
  N.lor (N.shiftl p1 8 mod 65536) p0 = (256 * p1 + p0)%N.
Proof.
  intros p1 p0 L1 L0. rewrite N.shiftl_mul_pow2. change (2 ^ 8)%N with 256%N.
  rewrite N.mod_small by lia.
  assert (Z : N.land (p1 * 256) p0 = 0%N).
  { apply N.bits_inj_0. intros k. rewrite N.land_spec.
    change 256%N with (2 ^ 8)%N. rewrite <- N.shiftl_mul_pow2.
    destruct (N.ltb_spec k 8) as [L|L].
    - rewrite N.shiftl_spec_low by auto. reflexivity.
    - replace (N.testbit p0 k) with false; [apply andb_false_r|]. symmetry.
      destruct (N.eq_dec p0 0) as [->|]; [apply N.bits_0|].
      apply N.bits_above_log2. apply N.log2_lt_pow2; [lia|].
      assert (2 ^ 8 <= 2 ^ k)%N by (apply N.pow_le_mono_r; lia).
      change (2 ^ 8)%N with 256%N in *. lia. }
  rewrite <- N.lxor_lor by auto. rewrite <- N.add_nocarry_lxor by auto. lia.
Qed.

Lemma chunk_endpoint : forall a b c d p1 p0, (p1 < 256)%N -> (p0 < 256)%N ->
  exists e, endpoint_of_chunk [a; b; c; d; p1; p0] = Ret e /\
            endpoint e = endpoint_text a b c d (256 * p1 + p0).
Proof.
  intros a b c d p1 p0 L1 L0. eexists. split; [reflexivity|].
  unfold endpoint. cbn [pe_ip pe_port]. rewrite port_value by auto. rewrite !dec_decimal.
  unfold endpoint_text. change (s2b ".") with [46%N]. change (s2b ":") with [58%N].
  now rewrite <- !app_assoc.
Qed.

Lemma six : forall (l : bytes), List.length l = 6%nat -> exists a b c d e f, l = [a; b; c; d; e; f].
Proof.
  intros l L. do 6 (destruct l as [|? l]; [cbn in L; lia|]). destruct l; [|cbn in L; lia].
  repeat eexists.
Qed.

Lemma c19 : forall l, bytes_ok l ->
  exists es, endpoints_from_bytes l = Ret es /\ List.length es = (List.length l / 6)%nat /\
  forall k, (k < List.length es)%nat -> exists a b c d p1 p0 e,
    compact_entry l k a b c d p1 p0 /\ Forall byte_ok [a; b; c; d; p1; p0] /\
    nth_error es k = Some e /\ endpoint e = endpoint_text a b c d (256 * p1 + p0).
Proof.
  intros l. remember (List.length l) as n. revert l Heqn. induction n as [n IH] using lt_wf_ind. intros l Hn O.
  unfold endpoints_from_bytes. destruct (le_lt_dec 6 n) as [L|L].
  - rewrite chunks_exact_step by lia. cbn [endpoints_of_chunks].
    assert (L6 : List.length (firstn 6 l) = 6%nat) by (rewrite firstn_length; lia).
    destruct (six _ L6) as (a & b & c & d & p1 & p0 & E).
    assert (O6 : Forall byte_ok [a; b; c; d; p1; p0]).
    { rewrite <- E. rewrite <- (firstn_skipn 6 l) in O. now apply Forall_app in O. }
    assert (Op := O6). do 4 (inversion Op as [|? ? _ Op']; subst; clear Op; rename Op' into Op).
    inversion Op as [|? ? B1 Op']; subst. inversion Op' as [|? ? B0 _]; subst.
    destruct (chunk_endpoint a b c d p1 p0 B1 B0) as (e & E1 & E2).
    rewrite E, E1. cbn [obind].
    assert (Ls : List.length (skipn 6 l) = (List.length l - 6)%nat) by apply skipn_length.
    destruct (IH (List.length l - 6)%nat ltac:(lia) (skipn 6 l) ltac:(lia)) as (es & E3 & E4 & E5).
    { rewrite <- (firstn_skipn 6 l) in O. now apply Forall_app in O. }
    unfold endpoints_from_bytes in E3. rewrite E3. cbn [obind]. eexists. split; [reflexivity|]. split.
    + cbn [List.length]. rewrite E4.
      lia.
    + intros [|k] Hk.
      * exists a, b, c, d, p1, p0, e. split; [exact E|]. auto.
      * cbn [List.length] in Hk. destruct (E5 k ltac:(lia)) as (a' & b' & c' & d' & p1' & p0' & e' & F1 & F2 & F3 & F4).
        exists a', b', c', d', p1', p0', e'. split; [|auto].
        unfold compact_entry in *. rewrite skipn_add in F1. rewrite <- F1. do 2 f_equal. lia.
  - rewrite chunks_exact_short by lia. cbn [endpoints_of_chunks]. eexists. split; [reflexivity|]. split.
    + cbn [List.length]. symmetry. apply Nat.div_small. lia.
    + cbn [List.length]. lia.
Qed.

(** ** C20 *)

Lemma read_digits_app : forall ds r, Forall digit ds -> match r with b :: _ => is_digit b = false | [] => True end ->
  read_digits (ds ++ r) = (ds, r).
Proof.
  induction ds as [|b t IH]; intros r F H.
  - destruct r; cbn; [reflexivity|]. now rewrite H.
  - inversion F; subst. cbn [app read_digits]. rewrite (proj1 (digit_is_digit b)) by auto.
    now rewrite IH.
Qed.

Lemma read_number_decimal : forall max bound z n r, (n <= bound)%N ->
  match r with b :: _ => is_digit b = false | [] => True end ->
  match max with Some m => (List.length (decimal n) <= m)%nat | None => True end ->
  read_number max bound z (decimal n ++ r) = Some (n, r).
Proof.
  intros max bound z n r L H M. unfold read_number.
  rewrite read_digits_app by (auto using decimal_digits).
  destruct (decimal_canon n) as [C E]. rewrite digits_value_numeral, E.
  destruct (decimal n) as [|d t] eqn:D; [now elim (decimal_nonnil n)|].
  cbn [List.length Nat.eqb].
  replace (match max with Some m => (m <? S (List.length t))%nat | None => false end) with false.
  2:{ destruct max; auto. symmetry. apply Nat.ltb_ge. cbn in M. lia. }
  rewrite (proj2 (N.ltb_ge bound n)) by auto.
  replace (negb z && (1 <? S (List.length t))%nat && (d =? 48)%N) with false; [reflexivity|].
  symmetry. destruct z; [reflexivity|]. cbn [negb andb].
  destruct (Nat.ltb_spec 1 (S (List.length t))) as [G|G]; [|reflexivity].
  cbn [andb]. apply N.eqb_neq. intros ->.
  destruct (decimal_head n) as (d' & t' & D' & _ & Z). rewrite D in D'. injection D' as <- <-.
  destruct (N.eq_dec n 0) as [->|NZ]; [|now elim (Z NZ)].
  vm_compute in D. injection D as <-. cbn in G. lia.
Qed.

Lemma decimal_byte_len : forall n, (n < 256)%N -> (List.length (decimal n) <= 3)%nat.
Proof.
  intros n L. destruct (decimal_canon n) as [C E]. destruct (decimal n) as [|d t] eqn:D; [cbn; lia|].
  destruct t as [|x t]; [cbn; lia|].
  assert (G := canon_numeral_ge d (x :: t) C ltac:(discriminate)). rewrite E in G.
  destruct (le_lt_dec (List.length (x :: t)) 2) as [?|B]; [cbn [List.length] in *; lia|].
  assert (P : (10 ^ 3 <= 10 ^ lenN (x :: t))%N) by (apply N.pow_le_mono_r; unfold lenN; lia).
  change (10 ^ 3)%N with 1000%N in P. lia.
Qed.

Lemma c20_parse : forall a b c d port, (a < 256)%N -> (b < 256)%N -> (c < 256)%N -> (d < 256)%N ->
  (port < 65536)%N -> parse_socket_addr (endpoint_text a b c d port) = Some (a, b, c, d, port).
Proof.
  intros a b c d port La Lb Lc Ld Lp. unfold parse_socket_addr, endpoint_text.
  change (s2b ".") with [46%N]. change (s2b ":") with [58%N]. cbn [app].
  rewrite read_number_decimal by (auto using decimal_byte_len; lia). cbn [bindo read_char N.eqb Pos.eqb].
  rewrite read_number_decimal by (auto using decimal_byte_len; lia). cbn [bindo read_char N.eqb Pos.eqb].
  rewrite read_number_decimal by (auto using decimal_byte_len; lia). cbn [bindo read_char N.eqb Pos.eqb].
  rewrite read_number_decimal by (auto using decimal_byte_len; lia). cbn [bindo read_char N.eqb Pos.eqb].
  rewrite <- (app_nil_r (decimal port)).
  rewrite read_number_decimal by (auto; lia). reflexivity.
Qed.

Lemma read_digits_inv : forall s d r, read_digits s = (d, r) -> s = d ++ r /\ Forall digit d.
Proof.
  induction s as [|b t IH]; intros d r H; cbn [read_digits] in H.
  - injection H as <- <-. auto.
  - destruct (is_digit b) eqn:B.
    + destruct (read_digits t) as [d' r'] eqn:E. injection H as <- <-. destruct (IH _ _ eq_refl) as [-> F].
      split; [reflexivity|]. constructor; [apply digit_is_digit; auto|auto].
    + injection H as <- <-. auto.
Qed.

Lemma read_number_inv : forall max bound z s v r, read_number max bound z s = Some (v, r) ->
  exists d, s = d ++ r /\ Forall digit d /\ d <> [] /\ numeral d = v /\ (v <= bound)%N /\ (z = false -> d = decimal v).
Proof.
  intros max bound z s v r H. unfold read_number in H. destruct (read_digits s) as [d r'] eqn:E.
  apply read_digits_inv in E as [-> F].
  destruct (Nat.eqb_spec (List.length d) 0) as [L|L]; [discriminate|].
  destruct (match max with Some m => (m <? List.length d)%nat | None => false end); [discriminate|].
  destruct (N.ltb_spec bound (digits_value d)) as [B|B]; [discriminate|].
  destruct (negb z && (1 <? List.length d)%nat && match d with b :: _ => (b =? 48)%N | [] => false end) eqn:Z; [discriminate|].
  injection H as <- <-. rewrite digits_value_numeral in *. exists d.
  assert (NE : d <> []) by (intros ->; apply L; reflexivity).
  do 5 (split; [auto; fail|]). intros ->.
  destruct (decimal_canon (numeral d)) as [C EN]. apply canon_inj; auto. split; [auto|]. split; [auto|].
  intros t ->. cbn [negb andb List.length] in Z. destruct t as [|x t]; [reflexivity|]. discriminate.
Qed.

Lemma read_char_inv : forall c s r, read_char c s = Some r -> s = c :: r.
Proof. intros c [|b t] r H; [discriminate|]. cbn in H. destruct (N.eqb_spec b c) as [->|]; [congruence|discriminate]. Qed.

Lemma zeros_decimal : forall d, Forall digit d -> d <> [] -> exists k, d = repeat 48%N k ++ decimal (numeral d).
Proof.
  induction d as [|b t IH]; intros F NE; [congruence|]. inversion F; subst.
  destruct t as [|x t].
  - exists 0%nat. cbn [repeat app]. destruct (decimal_canon (numeral [b])) as [C EN]. apply canon_inj; auto.
    split; [auto|]. split; [auto|]. intros t E. congruence.
  - destruct (N.eq_dec b 48) as [->|NZ].
    + destruct IH as [k E]; [auto|discriminate|]. exists (S k). cbn [repeat app]. f_equal. rewrite E at 1. reflexivity.
    + exists 0%nat. cbn [repeat app]. destruct (decimal_canon (numeral (b :: x :: t))) as [C EN]. apply canon_inj; auto.
      split; [auto|]. split; [auto|]. intros t' E. congruence.
Qed.

Lemma numeral_zeros : forall k d, numeral (repeat 48%N k ++ d) = numeral d.
Proof. induction k as [|k IH]; intros d; [reflexivity|]. cbn [repeat app numeral]. rewrite IH. lia. Qed.

Lemma c20_exact : forall s a b c d port, parse_socket_addr s = Some (a, b, c, d, port) <->
  (a < 256 /\ b < 256 /\ c < 256 /\ d < 256 /\ port < 65536)%N /\ exists k,
  s = decimal a ++ s2b "." ++ decimal b ++ s2b "." ++ decimal c ++ s2b "." ++ decimal d ++ s2b ":" ++ repeat 48%N k ++ decimal port.
Proof.
  intros s a b c d port. change (s2b ".") with [46%N]. change (s2b ":") with [58%N]. split.
  - intros H. unfold parse_socket_addr, bindo in H.
    destruct (read_number (Some 3%nat) 255 false s) as [[a' s1]|] eqn:E1; [|discriminate].
    destruct (read_char 46 s1) as [s2|] eqn:E2; [|discriminate].
    destruct (read_number (Some 3%nat) 255 false s2) as [[b' s3]|] eqn:E3; [|discriminate].
    destruct (read_char 46 s3) as [s4|] eqn:E4; [|discriminate].
    destruct (read_number (Some 3%nat) 255 false s4) as [[c' s5]|] eqn:E5; [|discriminate].
    destruct (read_char 46 s5) as [s6|] eqn:E6; [|discriminate].
    destruct (read_number (Some 3%nat) 255 false s6) as [[d' s7]|] eqn:E7; [|discriminate].
    destruct (read_char 58 s7) as [s8|] eqn:E8; [|discriminate].
    destruct (read_number None 65535 true s8) as [[p' s9]|] eqn:E9; [|discriminate].
    destruct s9; [|discriminate]. injection H as <- <- <- <- <-.
    apply read_number_inv in E1 as (d1 & -> & _ & _ & _ & B1 & X1). apply read_number_inv in E3 as (d3 & -> & _ & _ & _ & B3 & X3).
    apply read_number_inv in E5 as (d5 & -> & _ & _ & _ & B5 & X5). apply read_number_inv in E7 as (d7 & -> & _ & _ & _ & B7 & X7).
    apply read_number_inv in E9 as (d9 & -> & F9 & N9 & V9 & B9 & _).
    apply read_char_inv in E2 as ->. apply read_char_inv in E4 as ->. apply read_char_inv in E6 as ->. apply read_char_inv in E8 as ->.
    split; [lia|]. destruct (zeros_decimal d9 F9 N9) as [k E]. exists k. rewrite <- X1, <- X3, <- X5, <- X7 by auto. subst p'. rewrite <- E, app_nil_r. reflexivity.
  - intros [(La & Lb & Lc & Ld & Lp) (k & ->)]. unfold parse_socket_addr. cbn [app].
    rewrite read_number_decimal by (auto using decimal_byte_len; lia). cbn [bindo read_char N.eqb Pos.eqb].
    rewrite read_number_decimal by (auto using decimal_byte_len; lia). cbn [bindo read_char N.eqb Pos.eqb].
    rewrite read_number_decimal by (auto using decimal_byte_len; lia). cbn [bindo read_char N.eqb Pos.eqb].
    rewrite read_number_decimal by (auto using decimal_byte_len; lia). cbn [bindo read_char N.eqb Pos.eqb].
    unfold read_number. rewrite <- (app_nil_r (repeat 48%N k ++ decimal port)).
    assert (F : Forall digit (repeat 48%N k ++ decimal port)).
    { apply Forall_app. split; [|apply decimal_digits]. apply Forall_forall. intros x I. apply repeat_spec in I as ->. unfold digit. lia. }
    rewrite read_digits_app by auto. rewrite digits_value_numeral, numeral_zeros, (proj2 (decimal_canon port)).
    destruct (Nat.eqb_spec (List.length (repeat 48%N k ++ decimal port)) 0) as [Z|_].
    { rewrite app_length in Z. pose proof (decimal_nonnil port). destruct (decimal port); [congruence|cbn in Z; lia]. }
    rewrite (proj2 (N.ltb_ge 65535 port)) by lia. reflexivity.
Qed.

Lemma c20 : forall l es, bytes_ok l -> endpoints_from_bytes l = Ret es ->
  forall k e, nth_error es k = Some e -> exists a b c d p1 p0,
    compact_entry l k a b c d p1 p0 /\
    parse_socket_addr (endpoint e) = Some (a, b, c, d, (256 * p1 + p0)%N) /\
    (forall net, connect net (endpoint e) <> Panic).
Proof.
  intros l es O E k e H. destruct (c19 l O) as (es' & E' & _ & P). rewrite E in E'. injection E' as <-.
  destruct (P k) as (a & b & c & d & p1 & p0 & e' & P1 & P2 & P3 & P4).
  { apply nth_error_Some. congruence. }
  rewrite H in P3. injection P3 as <-.
  inversion P2 as [|? ? Ba P2a]; subst. inversion P2a as [|? ? Bb P2b]; subst.
  inversion P2b as [|? ? Bc P2c]; subst. inversion P2c as [|? ? Bd P2d]; subst.
  inversion P2d as [|? ? B1 P2e]; subst. inversion P2e as [|? ? B0 _]; subst.
  unfold byte_ok in *.
  assert (S : parse_socket_addr (endpoint e) = Some (a, b, c, d, (256 * p1 + p0)%N)).
  { rewrite P4. apply c20_parse; auto. lia. }
  exists a, b, c, d, p1, p0. split; [auto|]. split; [auto|].
  intros net. unfold connect. rewrite S. destruct net; discriminate.
Qed.

Lemma c20_inj : forall l l' es es' k k' e e' a b c d p1 p0 a' b' c' d' p1' p0',
  bytes_ok l -> bytes_ok l' ->
  endpoints_from_bytes l = Ret es -> endpoints_from_bytes l' = Ret es' ->
  nth_error es k = Some e -> nth_error es' k' = Some e' ->
  compact_entry l k a b c d p1 p0 -> compact_entry l' k' a' b' c' d' p1' p0' ->
  endpoint e = endpoint e' -> [a; b; c; d; p1; p0] = [a'; b'; c'; d'; p1'; p0'].
Proof.
  intros l l' es es' k k' e e' a b c d p1 p0 a' b' c' d' p1' p0' O O' E E' H H' C C' Q.
  destruct (c20 l es O E k e H) as (a1 & b1 & c1 & d1 & q1 & q0 & D & S & _).
  destruct (c20 l' es' O' E' k' e' H') as (a2 & b2 & c2 & d2 & r1 & r0 & D' & S' & _).
  unfold compact_entry in *. rewrite C in D. rewrite C' in D'. injection D as <- <- <- <- <- <-.
  injection D' as <- <- <- <- <- <-. rewrite Q in S. rewrite S in S'.
  assert (P := f_equal (fun o => match o with Some (_, _, _, _, x) => x | None => 0%N end) S'). cbv beta iota in P.
  assert (P' := f_equal (fun o => match o with Some (x, y, z, w, _) => (x, y, z, w) | None => (0, 0, 0, 0)%N end) S').
  cbv beta iota in P'. injection P' as -> -> -> ->. clear S S' Q.
  assert (B : (p0 < 256 /\ p0' < 256)%N).
  { split.
    - assert (F : Forall byte_ok (firstn 6 (skipn (6 * k) l))).
      { rewrite <- (firstn_skipn (6 * k) l) in O. apply Forall_app in O as [_ O].
        rewrite <- (firstn_skipn 6 (skipn (6 * k) l)) in O. now apply Forall_app in O. }
      rewrite C in F. rewrite Forall_forall in F. apply F. cbn. auto 7.
    - assert (F : Forall byte_ok (firstn 6 (skipn (6 * k') l'))).
      { rewrite <- (firstn_skipn (6 * k') l') in O'. apply Forall_app in O' as [_ O'].
        rewrite <- (firstn_skipn 6 (skipn (6 * k') l')) in O'. now apply Forall_app in O'. }
      rewrite C' in F. rewrite Forall_forall in F. apply F. cbn. auto 7. }
  assert (p1 = p1' /\ p0 = p0') by lia. destruct H0 as [-> ->]. reflexivity.
Qed.

(** ** C21 *)


Lemma c21_connect : forall tid, List.length tid = 4%nat -> bep15_connect tid (make_connection_message tid).
Proof.
  intros tid L. unfold bep15_connect, make_connection_message.
  do 4 (destruct tid as [|? tid]; [cbn in L; lia|]). destruct tid; [|cbn in L; lia].
  repeat split; vm_compute; reflexivity.
Qed.

Ltac len4 l := do 4 (destruct l as [|? l]; [cbn in *; lia|]); destruct l; [|cbn in *; lia].
Ltac len8 l := do 8 (destruct l as [|? l]; [cbn in *; lia|]); destruct l; [|cbn in *; lia].

Lemma c21_announce : forall tid cid pid h, List.length tid = 4%nat -> List.length cid = 8%nat ->
  List.length pid = 20%nat -> List.length h = 20%nat ->
  bep15_announce cid tid h pid (make_announce_message tid cid pid h).
Proof.
  intros tid cid pid h Lt Lc Lp Lh. unfold make_announce_message. len4 tid. len8 cid.
  do 20 (destruct pid as [|? pid]; [cbn in Lp; lia|]). destruct pid; [|cbn in Lp; lia].
  do 20 (destruct h as [|? h]; [cbn in Lh; lia|]). destruct h; [|cbn in Lh; lia].
  constructor; reflexivity.
Qed.

(** ** C22 *)

Lemma udp_send_recvs : forall s m ok s', udp_send s m = (ok, s') ->
  us_recvs s' = us_recvs s /\ us_sent s' = us_sent s ++ (if ok then [m] else []).
Proof.
  intros s m ok s' H. unfold udp_send in H. destruct (us_sends s) as [|[] r]; injection H as <- <-; cbn;
    rewrite ?app_nil_r; auto.
Qed.

Lemma udp_recv_spec : forall s n got s', udp_recv s n = Ret (got, s') ->
  exists r, us_recvs s = r :: us_recvs s' /\ got = option_map (firstn n) r /\ us_sent s' = us_sent s.
Proof.
  intros s n got s' H. unfold udp_recv in H. destruct (us_recvs s) as [|[b|] r]; try discriminate;
    injection H as <- <-; eexists; cbn; auto.
Qed.

Lemma ret_pair_inj : forall A B (a c : A) (b d : B), Ret (a, b) = Ret (c, d) -> c = a /\ d = b.
Proof. intros A B a c b d H. injection H. auto. Qed.

Lemma connect_rounds_spec : forall tries m s r s', connect_rounds tries m s = Ret (r, s') ->
  exists n errs, (n <= tries)%nat /\ us_sent s' = us_sent s ++ repeat m n /\
    (List.length errs <= tries)%nat /\ Forall (fun x => x = None) errs /\
    ((r = Err UdpNoConnection /\ List.length errs = tries /\ us_recvs s = errs ++ us_recvs s') \/
     (exists pkt, us_recvs s = errs ++ Some pkt :: us_recvs s' /\
        r = Ok (firstn 8 (skipn 8 (pkt ++ repeat 0%N 16))))).
Proof.
  induction tries as [|t IH]; intros m s r s' H; cbn [connect_rounds] in H.
  - injection H as <- <-. exists 0%nat, []. cbn. rewrite app_nil_r. auto 8.
  - destruct (udp_send s m) as [ok s1] eqn:S. apply udp_send_recvs in S as [S1 S2].
    destruct (udp_recv s1 16) as [[got s2]| |] eqn:R; try discriminate. cbn [obind] in H.
    apply udp_recv_spec in R as (x & R1 & R2 & R3). destruct x as [pkt|]; cbn [option_map] in R2; subst got.
    + apply ret_pair_inj in H as [-> ->]. exists (if ok then 1 else 0)%nat, []. split; [destruct ok; lia|].
      split; [rewrite R3, S2; destruct ok; reflexivity|]. cbn [List.length]. split; [lia|]. split; [constructor|].
      right. exists pkt. cbn [app]. split; [congruence|]. f_equal. unfold fill.
      rewrite firstn_length.
      destruct (le_lt_dec 16 (List.length pkt)) as [L|L].
      * rewrite Nat.min_l by lia. replace (repeat 0%N (16 - 16)) with (@nil N) by reflexivity.
        rewrite app_nil_r, skipn_firstn_comm, skipn_app. cbn [Nat.sub].
        rewrite firstn_app, skipn_length.
        replace (8 - (List.length pkt - 8))%nat with 0%nat by lia. rewrite firstn_O. now rewrite app_nil_r.
      * rewrite Nat.min_r by lia. rewrite firstn_all2 by lia.
        transitivity (skipn 8 (firstn 16 (pkt ++ repeat 0%N 16))); [|now rewrite skipn_firstn_comm].
        f_equal. rewrite firstn_app, firstn_all2 by lia. f_equal.
        assert (RF : forall a b, (a <= b)%nat -> firstn a (repeat 0%N b) = repeat 0%N a).
        { induction a; intros [|b] Hab; cbn; try lia; auto. f_equal. apply IHa. lia. }
        symmetry. apply RF. lia.
    + apply IH in H as (n & errs & N1 & N2 & N3 & N4 & N5).
      exists (n + if ok then 1 else 0)%nat, (None :: errs). split; [destruct ok; lia|].
      split.
      { rewrite N2, R3, S2, <- app_assoc. f_equal. destruct ok; cbn; [rewrite Nat.add_1_r|rewrite Nat.add_0_r]; reflexivity. }
      cbn [List.length]. split; [lia|]. split; [constructor; auto|].
      destruct N5 as [(-> & E & R)|(pkt & E & ->)].
      * left. split; [auto|]. split; [lia|]. cbn [app]. congruence.
      * right. exists pkt. split; [cbn [app]; congruence|auto].
Qed.

Lemma c22_general : forall s h pid u r s', udp_call true true s h pid u = Ret (r, s') ->
  let connect_request := make_connection_message udp_transaction_id in
  let announce cid := make_announce_message udp_transaction_id cid pid h in
  exists n anns, (n <= 4)%nat /\ us_sent s' = us_sent s ++ repeat connect_request n ++ anns /\
  (anns = [] \/ exists errs pkt rest, Forall (fun x => x = None) errs /\
      us_recvs s = errs ++ Some pkt :: rest /\
      anns = [announce (firstn 8 (skipn 8 (pkt ++ repeat 0%N 16)))]) /\
  (forall b, r = Ok b -> exists errs pkt resp, Forall (fun x => x = None) errs /\
      us_recvs s = errs ++ Some pkt :: Some resp :: us_recvs s' /\ (26 < List.length resp)%nat /\
      b = skipn 20 (firstn 4000 resp)).
Proof.
  intros s h pid u r s' H cr an. unfold udp_call in H. cbn [negb] in H.
  destruct (u_host u) as [host|]; [|injection H as <- <-; exists 0%nat, []; cbn [repeat app]; rewrite app_nil_r;
    split; [lia|]; split; [reflexivity|]; split; [auto|discriminate]].
  destruct (u_port u) as [port|]; [|injection H as <- <-; exists 0%nat, []; cbn [repeat app]; rewrite app_nil_r;
    split; [lia|]; split; [reflexivity|]; split; [auto|discriminate]].
  unfold connect_to_tracker in H. fold cr in H.
  destruct (connect_rounds 4 cr s) as [[r1 s1]| |] eqn:C; try discriminate. cbn [obind] in H.
  apply connect_rounds_spec in C as (n & errs & N1 & N2 & N3 & N4 & [(-> & _ & _)|(pkt & E & ->)]).
  - injection H as <- <-. exists n, []. split; [auto|]. split; [now rewrite app_nil_r|]. split; [auto|discriminate].
  - fold (an (firstn 8 (skipn 8 (pkt ++ repeat 0%N 16)))) in H.
    set (am := an (firstn 8 (skipn 8 (pkt ++ repeat 0%N 16)))) in *.
    destruct (udp_send s1 am) as [ok s2] eqn:S. apply udp_send_recvs in S as [S1 S2].
    destruct ok; cbn [negb] in H.
    2:{ injection H as <- <-. exists n, []. split; [auto|]. split; [rewrite S2, N2, !app_nil_r; reflexivity|].
        split; [auto|discriminate]. }
    destruct (udp_recv s2 4000) as [[got s3]| |] eqn:R; try discriminate. cbn [obind] in H.
    apply udp_recv_spec in R as (x & R1 & R2 & R3).
    assert (Sent : us_sent s3 = us_sent s ++ repeat cr n ++ [am]) by (rewrite R3, S2, N2, <- app_assoc; reflexivity).
    assert (An : [am] = [] \/ exists errs pkt rest, Forall (fun x => x = None) errs /\
      us_recvs s = errs ++ Some pkt :: rest /\
      [am] = [an (firstn 8 (skipn 8 (pkt ++ repeat 0%N 16)))]) by (right; exists errs, pkt, (us_recvs s1); auto).
    destruct x as [resp|]; cbn [option_map] in R2; subst got.
    2:{ injection H as <- <-. exists n, [am]. split; [auto|]. split; [auto|]. split; [auto|discriminate]. }
    destruct (Nat.ltb_spec 26 (List.length (firstn 4000 resp))) as [L|L].
    + rewrite slice_in in H.
      2:{ lia. }
      2:{ unfold fill. rewrite app_length. lia. }
      cbn [obind] in H. apply ret_pair_inj in H as [-> ->]. exists n, [am]. split; [auto|]. split; [auto|]. split; [auto|].
      intros b B. assert (B' := f_equal (fun o => match o with Ok x => x | Err _ => b end) B). cbv beta iota in B'. rewrite <- B'. clear B B'. exists errs, pkt, resp. split; [auto|].
      split; [rewrite E, <- S1, R1; reflexivity|].
      split; [rewrite firstn_length in L; lia|].
      unfold fill. rewrite skipn_app.
      replace (20 - List.length (firstn 4000 resp))%nat with 0%nat by lia. rewrite skipn_O.
      rewrite firstn_app, skipn_length.
      replace (List.length (firstn 4000 resp) - 20 - (List.length (firstn 4000 resp) - 20))%nat with 0%nat by lia.
      rewrite firstn_O, app_nil_r. apply firstn_all2. rewrite skipn_length. lia.
    + injection H as <- <-. exists n, [am]. split; [auto|]. split; [auto|]. split; [auto|discriminate].
Qed.

(** A tracker that answers, with whatever bytes. *)
Lemma c22_answers : forall h pid u pkt resp rest host port,
  u_host u = Some host -> u_port u = Some port ->
  udp_call true true {| us_sends := []; us_recvs := Some pkt :: Some resp :: rest; us_sent := [] |} h pid u
  = Ret (if (26 <? List.length resp)%nat then Ok (skipn 20 (firstn 4000 resp)) else Err UdpWrongResponseSize,
         {| us_sends := []; us_recvs := rest;
            us_sent := [make_connection_message udp_transaction_id;
                        make_announce_message udp_transaction_id
                          (firstn 8 (skipn 8 (pkt ++ repeat 0%N 16))) pid h] |}).
Proof.
  intros h pid u pkt resp rest host port Hh Hp.
  destruct (connect_rounds 4 (make_connection_message udp_transaction_id)
    {| us_sends := []; us_recvs := Some pkt :: Some resp :: rest; us_sent := [] |}) as [[r1 s1]| |] eqn:C;
    [|discriminate C|discriminate C].
  assert (C' := C). apply connect_rounds_spec in C' as (n & errs & N1 & N2 & N3 & N4 & N5).
  unfold udp_call. cbn [negb]. rewrite Hh, Hp. unfold connect_to_tracker. rewrite C. cbn [obind].
  cbn [connect_rounds udp_send us_sends udp_recv us_recvs us_sent app obind] in C.
  destruct N5 as [(-> & _ & _)|(pkt' & E & ->)]; [discriminate C|].
  cbn [us_recvs] in E.
  assert (pkt' = pkt).
  { destruct errs as [|x errs]; cbn [app] in E; [now injection E as ->|].
    inversion N4; subst. discriminate E. }
  subst pkt'. injection C as _ <-.
  cbn [udp_send us_sends us_recvs us_sent negb app udp_recv obind].
  assert (L : (26 <? List.length (firstn 4000 resp))%nat = (26 <? List.length resp)%nat).
  { rewrite firstn_length. destruct (Nat.ltb_spec 26 (Nat.min 4000 (List.length resp)));
      destruct (Nat.ltb_spec 26 (List.length resp)); lia. }
  rewrite L. destruct (Nat.ltb_spec 26 (List.length resp)) as [G|G]; [|reflexivity].
  rewrite slice_in.
  - cbn [obind]. do 3 f_equal. unfold fill. 
    rewrite skipn_app. rewrite firstn_length.
    replace (20 - Nat.min 4000 (List.length resp))%nat with 0%nat by lia. rewrite skipn_O.
    rewrite firstn_app, skipn_length, firstn_length.
    replace (Nat.min 4000 (List.length resp) - 20 - (Nat.min 4000 (List.length resp) - 20))%nat with 0%nat by lia.
    rewrite firstn_O, app_nil_r. apply firstn_all2. rewrite skipn_length, firstn_length. lia.
  - rewrite firstn_length. lia.
  - unfold fill. rewrite app_length. lia.
Qed.

Lemma c22_silent : forall h pid u host port n, u_host u = Some host -> u_port u = Some port -> (n < 4)%nat ->
  udp_call true true {| us_sends := []; us_recvs := repeat None n; us_sent := [] |} h pid u = OutOfFuel.
Proof.
  intros h pid u host port n Hh Hp L. unfold udp_call. cbn [negb]. rewrite Hh, Hp.
  do 4 (destruct n as [|n]; [reflexivity|]). lia.
Qed.

(** ** C23 *)

Lemma unreserved_safe : forall b, unreserved b = true -> safe_char b /\ b <> 37%N.
Proof.
  intros b H. unfold unreserved, is_alnum, is_digit in H. unfold safe_char. cbn [s2b list_ascii_of_string map].
  split; [|lia].
  destruct ((48 <=? b) && (b <=? 57) || (65 <=? b) && (b <=? 90) || (97 <=? b) && (b <=? 122))%N eqn:E; [left; lia|].
  right. cbn [orb] in H.
  destruct (N.eqb_spec b 45) as [->|]; [cbn; auto|]. destruct (N.eqb_spec b 95) as [->|]; [cbn; auto|].
  destruct (N.eqb_spec b 46) as [->|]; [cbn; auto|]. destruct (N.eqb_spec b 126) as [->|]; [cbn; auto 6|].
  discriminate.
Qed.

Lemma hex_digit_value' : forall d, (d < 16)%N -> hex_value (hex_digit d) = Some d /\ safe_char (hex_digit d).
Proof.
  intros d L. unfold hex_digit, hex_value, safe_char. destruct (N.ltb_spec d 10).
  - rewrite (proj2 (N.leb_le 48 _)), (proj2 (N.leb_le _ 57)) by lia. cbn [andb]. split; [f_equal; lia|left; lia].
  - rewrite (proj2 (N.leb_gt _ 57)) by lia. rewrite andb_false_r.
    rewrite (proj2 (N.leb_gt 97 _)) by lia. cbn [andb].
    rewrite (proj2 (N.leb_le 65 _)), (proj2 (N.leb_le _ 70)) by lia. cbn [andb]. split; [f_equal; lia|left; lia].
Qed.

Lemma c23_exact : forall b, (b < 256)%N ->
  (unreserved_char b /\ encode_binary [b] = [b]) \/
  (~ unreserved_char b /\ exists x y u v, encode_binary [b] = [37; x; y]%N /\ (u < 16 /\ v < 16)%N /\ b = (16 * u + v)%N /\
     nth_error (s2b "0123456789ABCDEF") (N.to_nat u) = Some x /\ nth_error (s2b "0123456789ABCDEF") (N.to_nat v) = Some y).
Proof.
  intros b L. unfold encode_binary. cbn [flat_map]. rewrite app_nil_r. unfold encode_byte.
  assert (U : unreserved b = true <-> unreserved_char b).
  { unfold unreserved, unreserved_char, is_alnum, is_digit. rewrite !orb_true_iff, !andb_true_iff, !N.leb_le, !N.eqb_eq. cbn [s2b In].
    change (s2b "-_.~") with [45; 95; 46; 126]%N. cbn [In]. intuition congruence. }
  assert (D : forall d, (d < 16)%N -> nth_error (s2b "0123456789ABCDEF") (N.to_nat d) = Some (hex_digit d)).
  { intros d Ld. assert (C : In d (map N.of_nat (seq 0 16))). { apply in_map_iff. exists (N.to_nat d). rewrite in_seq. lia. }
    cbn in C. repeat (destruct C as [<-|C]; [vm_compute; reflexivity|]). destruct C. }
  destruct (unreserved b) eqn:E.
  - left. split; [apply U; auto|reflexivity].
  - right. split; [intros X; apply U in X; congruence|].
    exists (hex_digit (b / 16)), (hex_digit (b mod 16)), (b / 16)%N, (b mod 16)%N.
    assert (b / 16 < 16)%N by (apply N.div_lt_upper_bound; lia). assert (b mod 16 < 16)%N by (apply N.mod_lt; lia).
    split; [reflexivity|]. split; [auto|]. split; [apply N.div_mod; lia|]. auto.
Qed.

Lemma c23_app : forall h h', encode_binary (h ++ h') = encode_binary h ++ encode_binary h'.
Proof. intros. apply flat_map_app. Qed.

Lemma c23 : forall h, bytes_ok h -> percent_decode (encode_binary h) = Some h /\ Forall safe_char (encode_binary h) /\
  (List.length h <= List.length (encode_binary h))%nat.
Proof.
  induction h as [|b t IH]; intros O; [cbn; auto|].
  inversion O as [|? ? B O']; subst. destruct (IH O') as (D & S & L). unfold byte_ok in B.
  unfold encode_binary in *. cbn [flat_map]. unfold encode_byte at 1 3 5.
  destruct (unreserved b) eqn:U.
  - destruct (unreserved_safe b U) as [Sb Nb]. cbn [app percent_decode List.length].
    rewrite (proj2 (N.eqb_neq b 37)) by auto. rewrite D. split; [auto|]. split; [constructor; auto|lia].
  - cbn [app percent_decode List.length]. cbn [N.eqb Pos.eqb].
    assert (B1 : (b / 16 < 16)%N) by (apply N.div_lt_upper_bound; lia).
    assert (B2 : (b mod 16 < 16)%N) by (apply N.mod_lt; lia).
    destruct (hex_digit_value' _ B1) as [E1 S1]. destruct (hex_digit_value' _ B2) as [E2 S2].
    rewrite E1, E2, D. split.
    + do 2 f_equal. symmetry. apply N.div_mod. lia.
    + split; [|lia]. constructor; [right; cbn; auto 7|]. constructor; [auto|]. constructor; auto.
Qed.

Lemma c23_inj : forall h h', bytes_ok h -> bytes_ok h' -> encode_binary h = encode_binary h' -> h = h'.
Proof.
  intros h h' O O' E. destruct (c23 h O) as [D _]. destruct (c23 h' O') as [D' _]. congruence.
Qed.

Lemma first_sep : forall (x : N) a a' r r', Forall (fun b => b <> x) a -> Forall (fun b => b <> x) a' ->
  a ++ x :: r = a' ++ x :: r' -> a = a' /\ r = r'.
Proof.
  intros x. induction a as [|y a IH]; intros [|y' a'] r r' F F' E; cbn [app] in E.
  - injection E as ->. auto.
  - inversion F'; subst. injection E as -> _. congruence.
  - inversion F; subst. injection E as -> _. congruence.
  - inversion F; inversion F'; subst. injection E as -> E. destruct (IH a' r r') as [-> ->]; auto.
Qed.

Lemma safe_not_amp : forall b, safe_char b -> b <> 38%N.
Proof. intros b [H|H] ->; [lia|]. cbn in H. intuition discriminate. Qed.

Lemma c23_query : forall t h pid h' pid', bytes_ok h -> bytes_ok h' ->
  tcp_request_url t h pid = tcp_request_url t h' pid' -> h = h' /\ pid = pid'.
Proof.
  intros t h pid h' pid' O O' E. unfold tcp_request_url in E.
  apply app_inv_head in E. apply app_inv_head in E.
  destruct (c23 h O) as (_ & S & _). destruct (c23 h' O') as (_ & S' & _).
  change (s2b "&peer_id=") with (38%N :: s2b "peer_id=") in E. cbn [app] in E.
  apply first_sep in E as [E1 E2].
  - apply c23_inj in E1; auto. apply app_inv_head in E2. auto.
  - eapply Forall_impl; [|exact S]. apply safe_not_amp.
  - eapply Forall_impl; [|exact S']. apply safe_not_amp.
Qed.

(** Every packet carries the same transaction id. *)
Lemma c22_tid : forall s h pid u r s', udp_call true true s h pid u = Ret (r, s') ->
  exists sent, us_sent s' = us_sent s ++ sent /\ Forall (fun m => field 12 4 m = [0; 1; 25; 158]%N) sent.
Proof.
  intros s h pid u r s' H. apply c22_general in H as (n & anns & _ & E & A & _). eexists. split; [exact E|].
  apply Forall_app. split.
  - apply Forall_forall. intros m I. apply repeat_spec in I. subst m. reflexivity.
  - destruct A as [->|(errs & pkt & rest & _ & _ & ->)]; [constructor|]. constructor; [|constructor].
    assert (L : List.length (firstn 8 (skipn 8 (pkt ++ repeat 0%N 16))) = 8%nat)
      by (rewrite firstn_length, skipn_length, app_length, repeat_length; lia).
    destruct (firstn 8 (skipn 8 (pkt ++ repeat 0%N 16))) as [|c0 [|c1 [|c2 [|c3 [|c4 [|c5 [|c6 [|c7 [|]]]]]]]]]; try discriminate L.
    reflexivity.
Qed.

(** No packet says that anything is left to download. *)
Lemma c21_left : forall s h pid u r s' left, udp_call true true s h pid u = Ret (r, s') ->
  List.length h = 20%nat -> List.length pid = 20%nat -> (0 < left < 2 ^ 64)%N ->
  exists sent, us_sent s' = us_sent s ++ sent /\ Forall (fun m => field 64 8 m <> big_endian 8 left) sent.
Proof.
  intros s h pid u r s' left H Lh Lp L. apply c22_general in H as (n & anns & _ & E & A & _). eexists. split; [exact E|].
  apply Forall_app. split.
  - apply Forall_forall. intros m I. apply repeat_spec in I. subst m. intros X. apply (f_equal (@List.length _)) in X.
    rewrite be_length in X. discriminate X.
  - destruct A as [->|(errs & pkt & rest & _ & _ & ->)]; [constructor|]. constructor; [|constructor].
    rewrite an_left with (cid := firstn 8 (skipn 8 (pkt ++ repeat 0%N 16))) (tid := udp_transaction_id) (hash := h) (peer_id := pid)
      by (apply c21_announce; auto; rewrite firstn_length, skipn_length, app_length, repeat_length; lia).
    intros X. apply (f_equal big_endian_value) in X. rewrite !be_value in X by (change (256 ^ N.of_nat 8)%N with (2 ^ 64)%N; lia). lia.
Qed.
