(** ProofBase: lemmas about the Base helpers *)
From Coq Require Import DecimalString DecimalFacts DecimalN DecimalPos Decimal.
From Verif Require Import Base Utf8 SpecBencode.

(** ** lists *)

Lemma bytes_eqb_eq : forall a b, bytes_eqb a b = true <-> a = b.
Proof.
  induction a as [|x a IH]; destruct b as [|y b]; cbn; split; intros H; try congruence; try reflexivity.
  - apply andb_true_iff in H as [H1 H2]. apply N.eqb_eq in H1. apply IH in H2. congruence.
  - inversion H; subst. rewrite N.eqb_refl. cbn. now apply IH.
Qed.

Lemma bytes_eqb_refl : forall a, bytes_eqb a a = true.
Proof. intros a. now apply bytes_eqb_eq. Qed.

Lemma bytes_eqb_neq : forall a b, bytes_eqb a b = false <-> a <> b.
Proof.
  intros a b. destruct (bytes_eqb a b) eqn:E; split; intros H; try congruence.
  - apply bytes_eqb_eq in E. congruence.
  - intros ->. rewrite bytes_eqb_refl in E. congruence.
Qed.

Lemma lenN_app : forall A (a b : list A), lenN (a ++ b) = (lenN a + lenN b)%N.
Proof. intros. unfold lenN. rewrite app_length. lia. Qed.

Lemma lenN_nil : forall A, lenN (@nil A) = 0%N.
Proof. reflexivity. Qed.

Lemma lenN_cons : forall A (x : A) l, lenN (x :: l) = (lenN l + 1)%N.
Proof. intros. unfold lenN. cbn [List.length]. lia. Qed.

Lemma nth_error_app_mid : forall A (a : list A) x b, nth_error (a ++ x :: b) (List.length a) = Some x.
Proof. intros. rewrite nth_error_app2 by lia. now rewrite Nat.sub_diag. Qed.

Lemma skipn_app_len : forall A (a b : list A), skipn (List.length a) (a ++ b) = b.
Proof. intros. rewrite skipn_app, skipn_all, Nat.sub_diag. reflexivity. Qed.

Lemma firstn_app_len : forall A (a b : list A), firstn (List.length a) (a ++ b) = a.
Proof. intros. rewrite firstn_app, firstn_all, Nat.sub_diag. cbn. apply app_nil_r. Qed.

Lemma slice_app : forall A (a b c : list A) i j,
  i = List.length a -> j = List.length a + List.length b ->
  slice (a ++ b ++ c) i j = Ret b.
Proof.
  intros A a b c i j -> ->. unfold slice.
  rewrite (proj2 (Nat.leb_le _ _)) by lia.
  rewrite (proj2 (Nat.leb_le _ _)) by (rewrite !app_length; lia). cbn [andb].
  replace (_ + _ - _) with (List.length b) by lia.
  now rewrite skipn_app_len, firstn_app_len.
Qed.

(** ** decimal numbers *)

Lemma digit_is_digit : forall b, digit b <-> is_digit b = true.
Proof. intros b. unfold digit, is_digit. rewrite andb_true_iff, !N.leb_le. tauto. Qed.

Lemma fold_digits_app : forall l acc,
  fold_left (fun acc b => (acc * 10 + (b - 48))%N) l acc
  = (acc * 10 ^ lenN l + numeral l)%N.
Proof.
  induction l as [|d t IH]; intros acc; cbn [fold_left numeral].
  - rewrite lenN_nil. cbn. lia.
  - rewrite IH. fold (lenN t). rewrite lenN_cons, N.pow_add_r. cbn. lia.
Qed.

Lemma digits_value_numeral : forall l, digits_value l = numeral l.
Proof. intros l. unfold digits_value. rewrite fold_digits_app. lia. Qed.

Lemma numeral_app : forall a b, numeral (a ++ b) = (numeral a * 10 ^ lenN b + numeral b)%N.
Proof.
  intros a b. rewrite <- !digits_value_numeral. unfold digits_value at 1.
  rewrite fold_left_app, fold_digits_app. fold (digits_value a).
  now rewrite !digits_value_numeral.
Qed.

Lemma numeral_lt : forall l, Forall digit l -> (numeral l < 10 ^ lenN l)%N.
Proof.
  induction l as [|d t IH]; intros H.
  - cbn. lia.
  - inversion H; subst. specialize (IH H3). cbn [numeral]. fold (lenN t).
    rewrite lenN_cons, N.pow_add_r, N.pow_1_r. unfold digit in H2. nia.
Qed.

(** canonical numerals: digits, non-empty, no superfluous leading zero *)
Definition canon (l : bytes) : Prop :=
  Forall digit l /\ l <> [] /\ (forall t, l = 48%N :: t -> t = []).

Lemma canon_numeral_ge : forall d t, canon (d :: t) -> t <> [] -> (10 ^ lenN t <= numeral (d :: t))%N.
Proof.
  intros d t (F & _ & Z) Ht. cbn [numeral]. fold (lenN t).
  inversion F; subst. unfold digit in H1.
  assert (d <> 48%N) by (intros ->; apply Ht; now apply (Z t)).
  assert (10 ^ lenN t <> 0)%N by (apply N.pow_nonzero; lia). nia.
Qed.

Lemma numeral_inj_len : forall a b, Forall digit a -> Forall digit b ->
  List.length a = List.length b -> numeral a = numeral b -> a = b.
Proof.
  induction a as [|x a IH]; destruct b as [|y b]; intros Ha Hb Hl He; cbn in Hl; try congruence.
  inversion Ha; inversion Hb; subst. injection Hl as Hl.
  cbn [numeral] in He. rewrite Hl in He.
  pose proof (numeral_lt a ltac:(assumption)) as La. pose proof (numeral_lt b ltac:(assumption)) as Lb.
  unfold lenN in La, Lb. rewrite Hl in La. unfold digit in *.
  set (P := (10 ^ N.of_nat (List.length b))%N) in *.
  assert (x = y) by nia. subst. f_equal. apply IH; auto. nia.
Qed.

Lemma canon_inj : forall a b, canon a -> canon b -> numeral a = numeral b -> a = b.
Proof.
  assert (W : forall a b, canon a -> canon b -> numeral a = numeral b ->
                (List.length a < List.length b)%nat -> False).
  { intros a b Ca Cb He Hl. destruct b as [|y b]; [cbn in Hl; lia|].
    destruct a as [|x a]; [destruct Ca as (_ & ? & _); congruence|].
    assert (b <> []) by (destruct b; cbn in Hl; [lia|congruence]).
    pose proof (canon_numeral_ge y b Cb H) as G.
    pose proof (numeral_lt (x :: a) (proj1 Ca)) as L.
    assert (10 ^ lenN (x :: a) <= 10 ^ lenN b)%N.
    { apply N.pow_le_mono_r; [lia|]. unfold lenN. cbn in *. lia. }
    lia. }
  intros a b Ca Cb He.
  destruct (Nat.lt_trichotomy (List.length a) (List.length b)) as [L|[L|L]].
  - exfalso. eauto.
  - apply numeral_inj_len; auto; [apply Ca|apply Cb].
  - exfalso. eauto.
Qed.

Lemma dec_f_spec : forall f n acc, (n < 2 ^ N.of_nat f)%N ->
  exists l, dec_f (S f) n acc = l ++ acc /\ canon l /\ numeral l = n.
Proof.
  induction f as [|f IH]; intros n acc Hf; cbn [dec_f]; fold dec_f;
  destruct (n <? 10)%N eqn:E;
  try (apply N.ltb_lt in E; exists [(48 + n mod 10)%N]; rewrite N.mod_small by lia;
       split; [reflexivity|split; [split; [|split]|]];
       [ constructor; [unfold digit; lia | constructor]
       | congruence
       | intros t H; congruence
       | cbn [numeral List.length]; cbn [N.of_nat]; rewrite N.pow_0_r; lia ]).
  - apply N.ltb_ge in E. cbn in Hf. lia.
  - apply N.ltb_ge in E.
    destruct (IH (n / 10)%N ((48 + n mod 10)%N :: acc)) as (l & E1 & (F & NE & Z) & V).
    { apply N.div_lt_upper_bound; [lia|].
      replace (N.of_nat (S f)) with (1 + N.of_nat f)%N in Hf by lia.
      rewrite N.pow_add_r in Hf. lia. }
    cbn [dec_f] in E1.
    exists (l ++ [(48 + n mod 10)%N]). rewrite <- app_assoc. split; [exact E1|].
    assert (Hm : (n mod 10 < 10)%N) by (apply N.mod_lt; lia).
    repeat split.
    + apply Forall_app. split; auto. constructor; [unfold digit; lia|constructor].
    + intros H. apply app_eq_nil in H as [_ H]. congruence.
    + intros t H. exfalso. destruct l as [|d l']; [congruence|]. cbn in H. injection H as -> Ht.
      assert (l' = []) by (now apply (Z l')). subst. cbn [numeral List.length] in V.
      cbn in V. assert (n / 10 <> 0)%N; [|lia]. intros E0.
      apply N.div_small_iff in E0; lia.
    + rewrite numeral_app, V. cbn [numeral List.length]. change (lenN [(48 + n mod 10)%N]) with 1%N.
      rewrite N.pow_1_r. cbn [N.of_nat]. rewrite N.pow_0_r.
      pose proof (N.div_mod n 10 ltac:(lia)). lia.
Qed.

Lemma dec_canon : forall n, canon (dec n) /\ numeral (dec n) = n.
Proof.
  intros n. unfold dec. destruct (dec_f_spec (N.size_nat n) n []) as (l & E & C & V).
  { pose proof (N.size_gt n) as G. replace (N.size n) with (N.of_nat (N.size_nat n)) in G; auto.
    destruct n as [|p]; cbn; auto. clear. induction p; cbn; lia. }
  rewrite E, app_nil_r. auto.
Qed.

(** the standard library's numerals *)
Definition ub (d : uint) : bytes := s2b (NilEmpty.string_of_uint d).

Lemma ub_digits : forall d, Forall digit (ub d).
Proof. induction d; cbn; constructor; auto; unfold digit; cbn; lia. Qed.

Lemma lenN_ub_step : forall (x : N) t, (10 ^ lenN (x :: t) = 10 * 10 ^ lenN t)%N.
Proof. intros. rewrite lenN_cons, N.pow_add_r, N.pow_1_r. lia. Qed.

Lemma of_uint_acc_numeral : forall d acc,
  Npos (Pos.of_uint_acc d acc) = (Npos acc * 10 ^ lenN (ub d) + numeral (ub d))%N.
Proof.
  induction d; intros acc; cbn [Pos.of_uint_acc];
  [ cbn [ub NilEmpty.string_of_uint s2b list_ascii_of_string map numeral]; cbn; lia | .. ];
  rewrite IHd;
  match goal with |- context [ub (?c ?e)] =>
    let v := eval compute in (N_of_ascii (match ub (c Nil) with x :: _ => ascii_of_N x | _ => "0"%char end)) in
    change (ub (c e)) with (v :: ub e) end;
  rewrite lenN_ub_step; cbn [numeral]; fold (lenN (ub d));
  generalize (numeral (ub d)); generalize (10 ^ lenN (ub d))%N; intros P V; 
  lia.
Qed.

Lemma of_uint_numeral : forall d, N.of_uint d = numeral (ub d).
Proof.
  induction d; unfold N.of_uint in *; cbn [Pos.of_uint]; [reflexivity| |..];
  match goal with |- context [ub (?c ?e)] =>
    let v := eval compute in (N_of_ascii (match ub (c Nil) with x :: _ => ascii_of_N x | _ => "0"%char end)) in
    change (ub (c e)) with (v :: ub e) end;
  cbn [numeral]; fold (lenN (ub d)); rewrite ?of_uint_acc_numeral, ?IHd;
  generalize (numeral (ub d)); generalize (10 ^ lenN (ub d))%N; intros P V; lia.
Qed.

Lemma decimal_canon : forall n, canon (decimal n) /\ numeral (decimal n) = n.
Proof.
  intros n. unfold decimal. fold (ub (N.to_uint n)). split.
  - assert (U : unorm (N.to_uint n) = N.to_uint n).
    { rewrite <- (DecimalN.Unsigned.to_of (N.to_uint n)), DecimalN.Unsigned.of_to. reflexivity. }
    repeat split.
    + apply ub_digits.
    + intros H. destruct (N.to_uint n) eqn:E; cbn in H, U; congruence.
    + intros t H. destruct (N.to_uint n) eqn:E; cbn in H; try congruence.
      injection H as <-. unfold unorm in U. cbn [nzhead] in U.
      pose proof (nzhead_nonzero u) as NZ.
      destruct (nzhead u) eqn:En; try congruence.
      injection U as <-. reflexivity.
  - now rewrite <- of_uint_numeral, DecimalN.Unsigned.of_to.
Qed.

Lemma dec_decimal : forall n, dec n = decimal n.
Proof.
  intros n. destruct (dec_canon n) as [C1 V1], (decimal_canon n) as [C2 V2].
  apply canon_inj; auto. congruence.
Qed.

Lemma decimal_inj : forall a b, decimal a = decimal b -> a = b.
Proof.
  intros a b H. destruct (decimal_canon a) as [_ Va], (decimal_canon b) as [_ Vb]. congruence.
Qed.

Lemma decimal_digits : forall n, Forall digit (decimal n).
Proof. intros n. apply (proj1 (decimal_canon n)). Qed.

Lemma decimal_nonnil : forall n, decimal n <> [].
Proof. intros n. apply (proj1 (decimal_canon n)). Qed.

Lemma decimal_head : forall n, exists d t, decimal n = d :: t /\ digit d /\ (n <> 0 -> d <> 48)%N.
Proof.
  intros n. destruct (decimal_canon n) as [(F & NE & Z) V].
  destruct (decimal n) as [|d t] eqn:E; [congruence|]. exists d, t. repeat split.
  - apply (Forall_inv F).
  - apply (Forall_inv F).
  - intros Hn ->. assert (t = []) by now apply Z. subst t. cbn in V. congruence.
Qed.

Lemma parse_usize_decimal : forall n, (n < two64)%N -> parse_usize (decimal n) = Some n.
Proof.
  intros n H. destruct (decimal_head n) as (d & t & E & _). unfold parse_usize. rewrite E.
  rewrite digits_value_numeral, <- E, (proj2 (decimal_canon n)).
  now rewrite (proj2 (N.ltb_lt _ _)).
Qed.


Lemma digits_utf8 : forall l, Forall digit l -> utf8_valid l = true.
Proof.
  induction l as [|d t IH]; intros H; auto. inversion H; subst. unfold digit in *. cbn.
  rewrite (proj2 (N.ltb_lt _ _)) by lia. auto.
Qed.

