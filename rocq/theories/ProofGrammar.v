(** ProofGrammar: lemmas for PropGrammar *)
From Verif Require Import Base Utf8 SpecBencode ProofBase ModelBencode ProofBencode SpecText ProofText SpecGrammar.

Scheme value_mut := Minimality for value Sort Prop
  with items_mut := Minimality for items Sort Prop
  with entries_mut := Minimality for entries Sort Prop.
Combined Scheme grammar_mut from value_mut, items_mut, entries_mut.
Scheme value_fails_mut := Minimality for value_fails Sort Prop
  with items_fail_mut := Minimality for items_fail Sort Prop
  with entries_fail_mut := Minimality for entries_fail Sort Prop.
Combined Scheme fails_mut from value_fails_mut, items_fail_mut, entries_fail_mut.
Scheme value_hangs_mut := Minimality for value_hangs Sort Prop
  with items_hang_mut := Minimality for items_hang Sort Prop
  with entries_hang_mut := Minimality for entries_hang Sort Prop.
Combined Scheme hangs_mut from value_hangs_mut, items_hang_mut, entries_hang_mut.

Lemma not_digit : forall b, ~ digit b <-> is_digit b = false.
Proof. intros b. rewrite digit_is_digit. destruct (is_digit b); intuition congruence. Qed.

Lemma number_usize : forall ds n, number ds n <-> (Forall digit ds /\ parse_usize ds = Some n).
Proof.
  intros ds n. unfold number, parse_usize. split.
  - intros (N & F & -> & L). split; [auto|]. destruct ds; [congruence|]. rewrite digits_value_numeral.
    rewrite (proj2 (N.ltb_lt _ _)) by auto. reflexivity.
  - intros (F & E). split; [destruct ds; congruence|]. split; [auto|]. destruct ds as [|d t]; [discriminate|].
    cbv zeta in E. rewrite digits_value_numeral in E.
    destruct (numeral (d :: t) <? two64)%N eqn:L; [|discriminate]. apply N.ltb_lt in L. injection E as <-. auto.
Qed.
Lemma no_number_usize : forall ds, no_number ds <-> (Forall digit ds /\ parse_usize ds = None).
Proof.
  intros ds. unfold no_number, parse_usize. split.
  - intros (F & [->|L]); (split; [auto|]); [reflexivity|]. destruct ds; [reflexivity|]. rewrite digits_value_numeral.
    rewrite (proj2 (N.ltb_ge _ _)) by auto. reflexivity.
  - intros (F & E). split; [auto|]. destruct ds as [|d t]; [auto|]. right. cbv zeta in E. rewrite digits_value_numeral in E.
    destruct (numeral (d :: t) <? two64)%N eqn:L; [discriminate|]. apply N.ltb_ge in L. exact L.
Qed.

(** ** What the parsers do on the grammar's pieces *)
Definition result_of (len : nat) (f : failure) : outcome (result (metainfo * nat) decoder_error) :=
  match f with
  | Cut => Panic
  | BadNumber ds => Ret (Err (BadNumberDecode ds))
  | BadKey r => Ret (Err (BadStringFromBytes (len - List.length r)))
  end.

Lemma counted_read : forall s str r, counted s str r -> forall pre, exists x, s = x ++ r /\ x <> [] /\
  parse_string (pre ++ s) (List.length pre) = Ret (Ok (str, List.length (pre ++ x))).
Proof.
  intros s str r [ds b str0 r0 N D] pre. apply number_usize in N as [F P].
  exists (ds ++ b :: str0). split; [rewrite <- app_assoc; reflexivity|]. split; [destruct ds; discriminate|].
  rewrite parse_string_app' by (auto; now apply not_digit).
  do 3 f_equal. rewrite !app_length. cbn [List.length]. lia.
Qed.
Lemma counted_failed : forall s f, counted_fails s f -> (forall r, f <> BadKey r) /\ forall pre,
  parse_string (pre ++ s) (List.length pre) =
  match f with BadNumber ds => Ret (Err (BadNumberDecode ds)) | _ => Panic end.
Proof.
  intros s f [ds F|ds b r N D|ds n b r N D L]; (split; [discriminate|]); intros pre; unfold parse_string.
  - unfold get_consecutive_digits. rewrite skipn_app_len, scan_digits_all by auto. reflexivity.
  - apply no_number_usize in N as [F P]. rewrite get_digits_app by (auto; now apply not_digit). rewrite P. reflexivity.
  - apply number_usize in N as [F P]. rewrite get_digits_app by (auto; now apply not_digit). rewrite P. cbn [orbind].
    rewrite (proj2 (N.leb_gt _ _)); [reflexivity|]. rewrite !lenN_app, lenN_cons. unfold lenN. lia.
Qed.

Lemma head_at : forall (pre : bytes) b t, nth_error (pre ++ b :: t) (List.length pre) = Some b.
Proof. intros. apply nth_error_mid. Qed.
Lemma head_none : forall (pre : bytes), nth_error (pre ++ []) (List.length pre) = None.
Proof. intros. rewrite app_nil_r. apply nth_error_None. lia. Qed.

Lemma decode_none : forall f pre b t, ~ starts_value b ->
  decode_f (S f) (pre ++ b :: t) (List.length pre) = Ret (Ok (MNothing, List.length pre)).
Proof.
  intros f pre b t N. cbn [decode_f]. rewrite head_at. unfold starts_value in N.
  rewrite (proj2 (N.eqb_neq b 105)), (proj2 (N.eqb_neq b 108)), (proj2 (N.eqb_neq b 100)) by tauto.
  destruct ((49 <=? b) && (b <=? 57))%N eqn:E; [|reflexivity]. apply andb_true_iff in E as [E1 E2]. apply N.leb_le in E1, E2. tauto.
Qed.
Lemma decode_string : forall f pre s, starts_string s ->
  decode_f (S f) (pre ++ s) (List.length pre) = ('(x, e) <-? parse_string (pre ++ s) (List.length pre) ;; Ret (Ok (MString x, e))).
Proof.
  intros f pre s (b & t & -> & H). cbn [decode_f]. rewrite head_at.
  rewrite (proj2 (N.eqb_neq b 105)), (proj2 (N.eqb_neq b 108)), (proj2 (N.eqb_neq b 100)) by lia.
  rewrite (proj2 (N.leb_le 49 b)), (proj2 (N.leb_le b 57)) by lia. reflexivity.
Qed.
Lemma decode_list : forall f pre s, decode_f (S f) (pre ++ 108%N :: s) (List.length pre) = list_f f ((pre ++ [108%N]) ++ s) (List.length (pre ++ [108%N])) [].
Proof.
  intros f pre s. cbn [decode_f]. rewrite head_at. change (108 =? 105)%N with false. cbn match. rewrite N.eqb_refl.
  rewrite <- app_assoc, app_length, Nat.add_1_r. reflexivity.
Qed.
Lemma decode_dict : forall f pre s, decode_f (S f) (pre ++ 100%N :: s) (List.length pre) = dict_f f ((pre ++ [100%N]) ++ s) (List.length (pre ++ [100%N])) [].
Proof.
  intros f pre s. cbn [decode_f]. rewrite head_at. change (100 =? 105)%N with false. change (100 =? 108)%N with false. cbn match. rewrite N.eqb_refl.
  rewrite <- app_assoc, app_length, Nat.add_1_r. reflexivity.
Qed.
Lemma decode_int : forall f pre s, decode_f (S f) (pre ++ 105%N :: s) (List.length pre) = parse_integer (pre ++ 105%N :: s) (List.length pre).
Proof. intros f pre s. cbn [decode_f]. rewrite head_at, N.eqb_refl. reflexivity. Qed.
Lemma int_digits : forall pre s, parse_integer (pre ++ 105%N :: s) (List.length pre) =
  ('(v, e) <-? get_consecutive_digits ((pre ++ [105%N]) ++ s) (List.length (pre ++ [105%N])) ;; Ret (Ok (MInteger v, S e))).
Proof. intros. unfold parse_integer. rewrite <- app_assoc, app_length, Nat.add_1_r. reflexivity. Qed.
Lemma list_step : forall f pre b t acc, b <> 101%N -> list_f (S f) (pre ++ b :: t) (List.length pre) acc =
  ('(v, cur') <-? decode_f f (pre ++ b :: t) (List.length pre) ;; list_f f (pre ++ b :: t) cur' (acc ++ [v])).
Proof.
  intros. cbn [list_f]. unfold get_current_byte, index. rewrite head_at. cbn [obind].
  rewrite (proj2 (N.eqb_neq _ _)) by auto. reflexivity.
Qed.
Lemma dict_step : forall f pre b t acc, b <> 101%N -> dict_f (S f) (pre ++ b :: t) (List.length pre) acc =
  ('(key, cur1) <-? parse_string (pre ++ b :: t) (List.length pre) ;;
   if utf8_valid key then
     '(v, cur2) <-? decode_f f (pre ++ b :: t) cur1 ;; dict_f f (pre ++ b :: t) cur2 (hm_insert acc key v)
   else Ret (Err (BadStringFromBytes cur1))).
Proof.
  intros. cbn [dict_f]. unfold get_current_byte, index. rewrite head_at. cbn [obind].
  rewrite (proj2 (N.eqb_neq _ _)) by auto. reflexivity.
Qed.

(** ** Gathering entries *)
Lemma nodup_snoc : forall (l : list bytes) k, nodup (list_eq_dec N.eq_dec) (k :: l) =
  if in_dec (list_eq_dec N.eq_dec) k l then nodup (list_eq_dec N.eq_dec) l else k :: nodup (list_eq_dec N.eq_dec) l.
Proof. reflexivity. Qed.
Lemma last_snoc : forall V (es : list (bytes * V)) k v k', last_binding (es ++ [(k, v)]) k' =
  if list_eq_dec N.eq_dec k k' then Some v else last_binding es k'.
Proof.
  intros. unfold last_binding. rewrite rev_app_distr. cbn [rev app find fst]. destruct (list_eq_dec N.eq_dec k k'); reflexivity.
Qed.
Lemma last_some : forall V (es : list (bytes * V)) k, In k (map fst es) -> exists v, last_binding es k = Some v.
Proof.
  intros V es k. induction es as [|[k0 v0] es IH] using rev_ind; intros N; [contradiction|]. rewrite last_snoc.
  rewrite map_app, in_app_iff in N. cbn in N. destruct (list_eq_dec N.eq_dec k0 k); [eauto|]. apply IH. tauto.
Qed.
Lemma flat_ext : forall V (f g : bytes -> option V) ks, (forall x, In x ks -> f x = g x) ->
  flat_map (fun x => match f x with Some w => [(x, w)] | None => [] end) ks =
  flat_map (fun x => match g x with Some w => [(x, w)] | None => [] end) ks.
Proof.
  intros V f g ks H. induction ks as [|x ks IH]; [reflexivity|]. cbn [flat_map]. rewrite H by (now left). f_equal. apply IH.
  intros y Hy. apply H. now right.
Qed.
Lemma insert_flat : forall V (f g : bytes -> option V) ks k v, NoDup ks -> In k ks ->
  (forall x, In x ks -> exists w, f x = Some w) -> g k = Some v -> (forall x, x <> k -> g x = f x) ->
  hm_insert (flat_map (fun x => match f x with Some w => [(x, w)] | None => [] end) ks) k v =
  flat_map (fun x => match g x with Some w => [(x, w)] | None => [] end) ks.
Proof.
  intros V f g ks k v ND I F Gk Go. induction ks as [|x ks IH]; [contradiction|].
  cbn [flat_map]. destruct (F x (or_introl eq_refl)) as (w & Ew). rewrite Ew. cbn [app hm_insert].
  inversion ND as [|? ? NI ND']; subst. destruct (bytes_eqb k x) eqn:E.
  - apply bytes_eqb_eq in E as <-. rewrite Gk. cbn [app]. f_equal.
    apply flat_ext. intros y Hy. symmetry. apply Go. intros ->. contradiction.
  - apply bytes_eqb_neq in E. rewrite Go, Ew by congruence. cbn [app]. f_equal. apply IH; auto.
    + destruct I; [congruence|auto].
    + intros z Hz. apply F. now right.
Qed.
Lemma flat_keys : forall V (f : bytes -> option V) ks, (forall x, In x ks -> exists w, f x = Some w) ->
  map fst (flat_map (fun x => match f x with Some w => [(x, w)] | None => [] end) ks) = ks.
Proof.
  intros V f ks F. induction ks as [|x ks IH]; [reflexivity|]. cbn [flat_map]. destruct (F x (or_introl eq_refl)) as (w & ->).
  cbn [app map fst]. f_equal. apply IH. intros y Hy. apply F. now right.
Qed.
Lemma gathered_fold : forall es, fold_left (fun acc kv => hm_insert acc (fst kv) (snd kv)) es [] = gathered es.
Proof.
  intros es. induction es as [|[k v] es IH] using rev_ind; [reflexivity|].
  rewrite fold_left_app. cbn [fold_left fst snd]. rewrite IH. unfold gathered.
  rewrite map_app, rev_app_distr. cbn [map fst rev app]. rewrite nodup_snoc.
  assert (K : forall x, In x (rev (nodup (list_eq_dec N.eq_dec) (rev (map fst es)))) <-> In x (map fst es)).
  { intros x. rewrite <- in_rev, nodup_In, <- in_rev. tauto. }
  assert (ND : NoDup (rev (nodup (list_eq_dec N.eq_dec) (rev (map fst es))))) by (apply NoDup_rev, NoDup_nodup).
  assert (S1 : forall x, In x (rev (nodup (list_eq_dec N.eq_dec) (rev (map fst es)))) -> exists w, last_binding es x = Some w).
  { intros x Hx. apply last_some. now apply K. }
  destruct (in_dec (list_eq_dec N.eq_dec) k (rev (map fst es))) as [I|NI]; rewrite <- in_rev in *.
  - apply insert_flat; auto.
    + now apply K.
    + rewrite last_snoc. destruct (list_eq_dec N.eq_dec k k); [auto|congruence].
    + intros x N. rewrite last_snoc. destruct (list_eq_dec N.eq_dec k x); [congruence|auto].
  - cbn [rev]. rewrite flat_map_app. cbn [flat_map]. rewrite last_snoc.
    destruct (list_eq_dec N.eq_dec k k); [|congruence]. cbn [app].
    rewrite hm_insert_new by (rewrite flat_keys by auto; now rewrite K). f_equal.
    apply flat_ext. intros x Hx. rewrite last_snoc. destruct (list_eq_dec N.eq_dec k x) as [->|]; [|auto].
    exfalso. now apply NI, K.
Qed.

(** ** Reading what the grammar derives *)
Lemma read_all :
  (forall s v r, value s v r -> forall pre, exists fuel x, s = x ++ r /\
     decode_f fuel (pre ++ s) (List.length pre) = Ret (Ok (v, List.length (pre ++ x)))) /\
  (forall s l r, items s l r -> forall pre, exists fuel x, s = x ++ r /\ forall acc,
     list_f fuel (pre ++ s) (List.length pre) acc = Ret (Ok (MList (acc ++ l), List.length (pre ++ x)))) /\
  (forall s es r, entries s es r -> forall pre, exists fuel x, s = x ++ r /\ forall acc,
     dict_f fuel (pre ++ s) (List.length pre) acc =
     Ret (Ok (MDictionary (fold_left (fun acc kv => hm_insert acc (fst kv) (snd kv)) es acc), List.length (pre ++ x)))).
Proof.
  apply grammar_mut.
  - intros pre. exists 1%nat, []. split; [reflexivity|]. cbn [decode_f]. rewrite head_none, app_nil_r. reflexivity.
  - intros b t N pre. exists 1%nat, []. split; [reflexivity|]. rewrite decode_none, app_nil_r by auto. reflexivity.
  - intros ds n b r N D pre. apply number_usize in N as [F P].
    exists 1%nat, (105%N :: ds ++ [b]). split; [cbn [app]; rewrite <- app_assoc; reflexivity|].
    rewrite decode_int, int_digits, get_digits_app by (auto; now apply not_digit). rewrite P. cbn [orbind].
    do 3 f_equal. rewrite !app_length. cbn [List.length]. rewrite app_length. cbn [List.length]. lia.
  - intros s str r S C pre. destruct (counted_read s str r C pre) as (x & E & _ & P). exists 1%nat, x. split; [auto|].
    rewrite decode_string, P by auto. reflexivity.
  - intros s l r _ IH pre. destruct (IH (pre ++ [108%N])) as (fuel & x & -> & H). exists (S fuel), (108%N :: x). split; [reflexivity|].
    rewrite decode_list, H, <- app_assoc. reflexivity.
  - intros s es r _ IH pre. destruct (IH (pre ++ [100%N])) as (fuel & x & -> & H). exists (S fuel), (100%N :: x). split; [reflexivity|].
    rewrite decode_dict, H, <- app_assoc, gathered_fold. reflexivity.
  - intros r pre. exists 1%nat, [101%N]. split; [reflexivity|]. intros acc. cbn [list_f]. unfold get_current_byte, index.
    rewrite head_at. cbn [obind]. rewrite N.eqb_refl, app_nil_r, app_length, Nat.add_1_r. reflexivity.
  - intros b t v s l r Nb _ IV _ IL pre. destruct (IV pre) as (f1 & x & E1 & D1).
    destruct (IL (pre ++ x)) as (f2 & y & E2 & D2). exists (S (Nat.max f1 f2)), (x ++ y). split; [rewrite E1, E2, app_assoc; auto|].
    intros acc. rewrite list_step by auto.
    rewrite (decode_f_mono f1 (Nat.max f1 f2) _ _ _ D1) by (try congruence; lia). cbn [orbind].
    rewrite E1, app_assoc, (list_f_mono f2 (Nat.max f1 f2) _ _ _ _ (D2 (acc ++ [v]))) by (try congruence; lia).
    rewrite <- !app_assoc. reflexivity.
  - intros r pre. exists 1%nat, [101%N]. split; [reflexivity|]. intros acc. cbn [dict_f]. unfold get_current_byte, index.
    rewrite head_at. cbn [obind]. rewrite N.eqb_refl, app_length, Nat.add_1_r. reflexivity.
  - intros b t key s1 v s2 es r Nb C T _ IV _ IE pre. destruct (counted_read _ _ _ C pre) as (x & E1 & _ & P).
    destruct (IV (pre ++ x)) as (f1 & y & E2 & D1). destruct (IE ((pre ++ x) ++ y)) as (f2 & z & E3 & D2).
    exists (S (Nat.max f1 f2)), (x ++ y ++ z). split; [rewrite E1, E2, E3, !app_assoc; auto|].
    intros acc. rewrite dict_step by auto. rewrite P. cbn [orbind]. apply c64_text in T. rewrite T.
    rewrite E1. replace (pre ++ x ++ s1) with ((pre ++ x) ++ s1) by (now rewrite app_assoc).
    rewrite (decode_f_mono f1 (Nat.max f1 f2) _ _ _ D1) by (try congruence; lia). cbn [orbind].
    rewrite E2. replace ((pre ++ x) ++ y ++ s2) with (((pre ++ x) ++ y) ++ s2) by (now rewrite <- !app_assoc).
    rewrite (dict_f_mono f2 (Nat.max f1 f2) _ _ _ _ (D2 (hm_insert acc key v))) by (try congruence; lia).
    cbn [fold_left fst snd]. rewrite <- !app_assoc. reflexivity.
Qed.

Lemma fail_all :
  (forall s f, value_fails s f -> forall pre, exists fuel, decode_f fuel (pre ++ s) (List.length pre) = result_of (List.length (pre ++ s)) f) /\
  (forall s f, items_fail s f -> forall pre, exists fuel, forall acc, list_f fuel (pre ++ s) (List.length pre) acc = result_of (List.length (pre ++ s)) f) /\
  (forall s f, entries_fail s f -> forall pre, exists fuel, forall acc, dict_f fuel (pre ++ s) (List.length pre) acc = result_of (List.length (pre ++ s)) f).
Proof.
  assert (R : forall n f, result_of n f <> OutOfFuel) by (intros n f; destruct f; discriminate).
  destruct read_all as (RV & _ & _). apply fails_mut.
  - intros ds F pre. exists 1%nat. rewrite decode_int, int_digits. unfold get_consecutive_digits.
    rewrite skipn_app_len, scan_digits_all by auto. reflexivity.
  - intros ds b r N D pre. exists 1%nat. apply no_number_usize in N as [F P].
    rewrite decode_int, int_digits, get_digits_app by (auto; now apply not_digit). rewrite P. reflexivity.
  - intros s f S C pre. exists 1%nat. rewrite decode_string by auto. destruct (counted_failed s f C) as [N H]. rewrite H.
    destruct f; [reflexivity|reflexivity|]. now elim (N left).
  - intros s f _ IH pre. destruct (IH (pre ++ [108%N])) as (fuel & H). exists (S fuel). rewrite decode_list, H, <- app_assoc. reflexivity.
  - intros s f _ IH pre. destruct (IH (pre ++ [100%N])) as (fuel & H). exists (S fuel). rewrite decode_dict, H, <- app_assoc. reflexivity.
  - intros pre. exists 1%nat. intros acc. cbn [list_f]. unfold get_current_byte, index. rewrite head_none. reflexivity.
  - intros b t f Nb _ IH pre. destruct (IH pre) as (fuel & H). exists (S fuel). intros acc. rewrite list_step, H by auto. destruct f; reflexivity.
  - intros b t v s f Nb V _ IH pre. destruct (RV _ _ _ V pre) as (f1 & x & E1 & D1). destruct (IH (pre ++ x)) as (f2 & D2).
    exists (S (Nat.max f1 f2)). intros acc. rewrite list_step by auto.
    rewrite (decode_f_mono f1 (Nat.max f1 f2) _ _ _ D1) by (try congruence; lia). cbn [orbind].
    rewrite E1, app_assoc. apply (list_f_mono f2); [apply D2|apply R|lia].
  - intros pre. exists 1%nat. intros acc. cbn [dict_f]. unfold get_current_byte, index. rewrite head_none. reflexivity.
  - intros b t f Nb C pre. exists 1%nat. intros acc. rewrite dict_step by auto. destruct (counted_failed _ f C) as [N H]. rewrite H.
    destruct f; [reflexivity|reflexivity|]. now elim (N left).
  - intros b t key s Nb C T pre. exists 1%nat. intros acc. rewrite dict_step by auto.
    destruct (counted_read _ _ _ C pre) as (x & E & _ & P). rewrite P. cbn [orbind].
    destruct (utf8_valid key) eqn:U; [elim T; now apply c64_text|]. cbn [result_of]. rewrite E, !app_length.
    do 3 f_equal. lia.
  - intros b t key s f Nb C T _ IH pre. destruct (counted_read _ _ _ C pre) as (x & E & _ & P).
    destruct (IH (pre ++ x)) as (fuel & H). exists (S fuel). intros acc. rewrite dict_step by auto. rewrite P. cbn [orbind].
    apply c64_text in T. rewrite T. rewrite E, app_assoc, H. destruct f; reflexivity.
  - intros b t key s1 v s2 f Nb C T V _ IH pre. destruct (counted_read _ _ _ C pre) as (x & E1 & _ & P).
    destruct (RV _ _ _ V (pre ++ x)) as (f1 & y & E2 & D1). destruct (IH ((pre ++ x) ++ y)) as (f2 & D2).
    exists (S (Nat.max f1 f2)). intros acc. rewrite dict_step by auto. rewrite P. cbn [orbind]. apply c64_text in T. rewrite T.
    rewrite E1. replace (pre ++ x ++ s1) with ((pre ++ x) ++ s1) by (now rewrite app_assoc).
    rewrite (decode_f_mono f1 (Nat.max f1 f2) _ _ _ D1) by (try congruence; lia). cbn [orbind].
    rewrite E2. replace ((pre ++ x) ++ y ++ s2) with (((pre ++ x) ++ y) ++ s2) by (now rewrite <- !app_assoc).
    apply (dict_f_mono f2); [apply D2|apply R|lia].
Qed.

Lemma hang_all :
  (forall s, value_hangs s -> forall pre fuel, decode_f fuel (pre ++ s) (List.length pre) = OutOfFuel) /\
  (forall s, items_hang s -> forall pre fuel acc, list_f fuel (pre ++ s) (List.length pre) acc = OutOfFuel) /\
  (forall s, entries_hang s -> forall pre fuel acc, dict_f fuel (pre ++ s) (List.length pre) acc = OutOfFuel).
Proof.
  destruct read_all as (RV & _ & _).
  assert (D : forall c cur f0 r f, decode_f f0 c cur = r -> r <> OutOfFuel -> decode_f f c cur = r \/ decode_f f c cur = OutOfFuel).
  { intros c cur f0 r f H N. destruct (decode_f f c cur) as [q| |] eqn:E; [left|left|auto];
      pose proof (decode_f_mono f0 (Nat.max f f0) _ _ _ H N ltac:(lia)) as A;
      pose proof (decode_f_mono f (Nat.max f f0) _ _ _ E ltac:(congruence) ltac:(lia)) as B; congruence. }
  apply hangs_mut.
  - intros s _ IH pre [|f]; [reflexivity|]. rewrite decode_list. apply IH.
  - intros s _ IH pre [|f]; [reflexivity|]. rewrite decode_dict. apply IH.
  - intros b t Nb N pre fuel acc. apply (list_f_stuck _ _ MNothing b) with (f0 := 1%nat); auto; [apply head_at|]. now apply decode_none.
  - intros b t Nb _ IH pre [|f] acc; [reflexivity|]. rewrite list_step, IH by auto. reflexivity.
  - intros b t v s Nb V _ IH pre [|f] acc; [reflexivity|]. rewrite list_step by auto.
    destruct (RV _ _ _ V pre) as (f1 & x & E & D1). destruct (D _ _ _ _ f D1 ltac:(congruence)) as [->| ->]; cbn [orbind]; [|reflexivity].
    rewrite E, app_assoc. apply IH.
  - intros b t key s Nb C T _ IH pre [|f] acc; [reflexivity|]. rewrite dict_step by auto.
    destruct (counted_read _ _ _ C pre) as (x & E & _ & P). rewrite P. cbn [orbind]. apply c64_text in T. rewrite T.
    rewrite E, app_assoc, IH. reflexivity.
  - intros b t key s1 v s2 Nb C T V _ IH pre [|f] acc; [reflexivity|]. rewrite dict_step by auto.
    destruct (counted_read _ _ _ C pre) as (x & E & _ & P). rewrite P. cbn [orbind]. apply c64_text in T. rewrite T.
    destruct (RV _ _ _ V (pre ++ x)) as (f1 & y & E2 & D1).
    rewrite E. replace (pre ++ x ++ s1) with ((pre ++ x) ++ s1) by (now rewrite app_assoc).
    destruct (D _ _ _ _ f D1 ltac:(congruence)) as [->| ->]; cbn [orbind]; [|reflexivity].
    rewrite E2. replace ((pre ++ x) ++ y ++ s2) with (((pre ++ x) ++ y) ++ s2) by (now rewrite <- !app_assoc). apply IH.
Qed.

(** ** Every input is covered *)
Lemma digits_prefix : forall s, (Forall digit s) \/ (exists ds b t, s = ds ++ b :: t /\ Forall digit ds /\ ~ digit b).
Proof.
  induction s as [|b s IH]; [auto|]. destruct (is_digit b) eqn:E.
  - apply digit_is_digit in E. destruct IH as [F|(ds & c & t & -> & F & N)]; [auto|]. right. exists (b :: ds), c, t. auto.
  - right. exists [], b, s. split; [reflexivity|]. split; [auto|now apply not_digit].
Qed.
Lemma counted_total : forall s, (exists str r, counted s str r /\ (List.length r < List.length s)%nat) \/ exists f, counted_fails s f.
Proof.
  intros s. destruct (digits_prefix s) as [F|(ds & b & t & -> & F & N)]; [right; exists Cut; now constructor|].
  destruct (parse_usize ds) as [n|] eqn:P.
  - assert (Nu : number ds n) by (now apply number_usize). destruct (N.ltb_spec (N.of_nat (List.length t)) n) as [L|L].
    + right. exists Cut. now apply (cf_short ds n).
    + left. exists (firstn (N.to_nat n) t), (skipn (N.to_nat n) t). split.
      * rewrite <- (firstn_skipn (N.to_nat n) t) at 1. constructor; [|auto].
        replace (N.of_nat _) with n by (rewrite firstn_length; lia). auto.
      * rewrite app_length, skipn_length. cbn [List.length]. lia.
  - right. exists (BadNumber ds). constructor; [now apply no_number_usize|auto].
Qed.
Lemma starts_dec : forall b, starts_value b \/ ~ starts_value b.
Proof. intros b. unfold starts_value. lia. Qed.

Lemma counted_shrinks : forall s str r, counted s str r -> (List.length r < List.length s)%nat.
Proof. intros s str r [ds b str0 r0 _ _]. rewrite app_length. cbn [List.length]. rewrite app_length. lia. Qed.
Lemma shrinks :
  (forall s v r, value s v r -> (r = s /\ forall b t, s = b :: t -> ~ starts_value b) \/ (List.length r < List.length s)%nat) /\
  (forall s l r, items s l r -> (List.length r < List.length s)%nat) /\
  (forall s es r, entries s es r -> (List.length r < List.length s)%nat).
Proof.
  apply grammar_mut.
  - left. split; [reflexivity|discriminate].
  - intros b t N. left. split; [reflexivity|]. intros b' t' E. injection E as <- <-. auto.
  - intros ds n b r _ _. right. cbn [List.length]. rewrite app_length. cbn [List.length]. lia.
  - intros s str r _ C. right. now apply (counted_shrinks s str).
  - intros s l r _ L. right. cbn [List.length]. lia.
  - intros s es r _ L. right. cbn [List.length]. lia.
  - intros r. cbn [List.length]. lia.
  - intros b t v s l r _ _ [[-> _]|L] _ L2; lia.
  - intros r. cbn [List.length]. lia.
  - intros b t key s1 v s2 es r _ C _ _ LV _ L2. apply counted_shrinks in C. destruct LV as [[-> _]|L]; lia.
Qed.

Lemma text_dec : forall l, (exists ns, text_of ns l) \/ ~ (exists ns, text_of ns l).
Proof.
  intros l. destruct (utf8_valid l) eqn:U; [left; now apply c64_text|]. right. intros T. apply c64_text in T. congruence.
Qed.

Lemma all_total : forall n,
  (forall s, (List.length s <= n)%nat -> (exists v r, value s v r) \/ (exists f, value_fails s f) \/ value_hangs s) /\
  (forall s, (List.length s <= n)%nat -> (exists l r, items s l r) \/ (exists f, items_fail s f) \/ items_hang s) /\
  (forall s, (List.length s <= n)%nat -> (exists es r, entries s es r) \/ (exists f, entries_fail s f) \/ entries_hang s).
Proof.
  destruct shrinks as (SV & _ & _).
  induction n as [|n (IV & II & IE)].
  - split; [|split]; intros s L; (destruct s; [|cbn in L; lia]); [left; exists MNothing, []; constructor| |]; right; left; exists Cut; constructor.
  - assert (V : forall s, (List.length s <= S n)%nat -> (exists v r, value s v r) \/ (exists f, value_fails s f) \/ value_hangs s).
    { intros [|b t] L; [left; exists MNothing, []; constructor|]. cbn [List.length] in L.
      destruct (starts_dec b) as [Sb|Sb]; [|left; exists MNothing, (b :: t); now constructor].
      destruct Sb as [->|[->|[->|Sb]]].
      - destruct (digits_prefix t) as [F|(ds & c & r & -> & F & N)]; [right; left; exists Cut; now constructor|].
        destruct (parse_usize ds) as [k|] eqn:P.
        + left. exists (MInteger k), r. constructor; [now apply number_usize|auto].
        + right. left. exists (BadNumber ds). constructor; [now apply no_number_usize|auto].
      - destruct (II t) as [(l & r & I)|[(f & F)|H]]; [lia| | |].
        + left. exists (MList l), r. now constructor.
        + right. left. exists f. now constructor.
        + right. right. now constructor.
      - destruct (IE t) as [(l & r & I)|[(f & F)|H]]; [lia| | |].
        + left. exists (MDictionary (gathered l)), r. now constructor.
        + right. left. exists f. now constructor.
        + right. right. now constructor.
      - assert (SS : starts_string (b :: t)) by (exists b, t; auto).
        destruct (counted_total (b :: t)) as [(str & r & C & _)|(f & F)].
        + left. exists (MString str), r. now constructor.
        + right. left. exists f. now constructor. }
    split; [exact V|]. split.
    + intros [|b t] L; [right; left; exists Cut; constructor|].
      destruct (N.eq_dec b 101) as [->|Nb]; [left; exists [], t; constructor|].
      destruct (starts_dec b) as [Sb|Sb]; [|right; right; now constructor].
      destruct (V (b :: t) L) as [(v & r & R)|[(f & F)|H]].
      * destruct (SV _ _ _ R) as [[_ N]|Lr]; [now elim (N b t eq_refl)|].
        destruct (II r) as [(l & q & I)|[(f & F)|H]]; [lia| | |].
        -- left. exists (v :: l), q. now apply (items_more b t v r).
        -- right. left. exists f. now apply (if_more b t v r).
        -- right. right. now apply (ih_more b t v r).
      * right. left. exists f. now apply if_item.
      * right. right. now apply ih_item.
    + intros [|b t] L; [right; left; exists Cut; constructor|].
      destruct (N.eq_dec b 101) as [->|Nb]; [left; exists [], t; constructor|].
      destruct (counted_total (b :: t)) as [(key & s1 & C & L1)|(f & F)].
      2:{ right. left. exists f. now apply ef_key. }
      destruct (text_dec key) as [T|T].
      2:{ right. left. exists (BadKey s1). now apply (ef_text b t key). }
      destruct (IV s1) as [(v & s2 & R)|[(f & F)|H]]; [lia| | |].
      * assert (L2 : (List.length s2 <= List.length s1)%nat) by (destruct (SV _ _ _ R) as [[-> _]|]; lia).
        destruct (IE s2) as [(l & q & I)|[(f & F)|H]]; [lia| | |].
        -- left. exists ((key, v) :: l), q. now apply (entries_more b t key s1 v s2).
        -- right. left. exists f. now apply (ef_more b t key s1 v s2).
        -- right. right. now apply (eh_more b t key s1 v s2).
      * right. left. exists f. now apply (ef_value b t key s1).
      * right. right. now apply (eh_value b t key s1).
Qed.

Lemma fuel_zero : forall c fuel r, decode_f fuel c 0 = r -> r <> OutOfFuel -> decode c = r.
Proof. intros. eapply decode_any_fuel; eauto. Qed.

Lemma value_decoded : forall c v r, value c v r -> exists x, c = x ++ r /\ decode c = Ret (Ok (v, List.length x)).
Proof.
  intros c v r V. destruct (proj1 read_all _ _ _ V []) as (fuel & x & E & D). exists x. split; [auto|].
  apply (fuel_zero c fuel); [exact D|discriminate].
Qed.
Lemma failed_decoded : forall c f, value_fails c f -> decode c = result_of (List.length c) f.
Proof.
  intros c f F. destruct (proj1 fail_all _ _ F []) as (fuel & D). apply (fuel_zero c fuel); [exact D|destruct f; discriminate].
Qed.
Lemma hang_decoded : forall c, value_hangs c -> decode c = OutOfFuel.
Proof. intros c H. apply (proj1 hang_all _ H []). Qed.

Lemma c66_accepts : forall c v n, decode c = Ret (Ok (v, n)) <-> exists r, value c v r /\ (n + List.length r = List.length c)%nat.
Proof.
  intros c v n. destruct (proj1 (all_total (List.length c)) c (le_n _)) as [(v' & r & V)|[(f & F)|H]].
  - destruct (value_decoded c v' r V) as (x & E & D). split.
    + intros D'. rewrite D in D'. injection D' as <- <-. exists r. split; [auto|]. rewrite E, app_length. lia.
    + intros (r' & V' & L). destruct (value_decoded c v r' V') as (x' & E' & D'). rewrite D'. do 3 f_equal. rewrite E', app_length in L. lia.
  - pose proof (failed_decoded c f F) as D. split.
    + intros D'. destruct f; cbn [result_of] in D; congruence.
    + intros (r' & V' & L). destruct (value_decoded c v r' V') as (x' & E' & D'). destruct f; cbn [result_of] in D; congruence.
  - pose proof (hang_decoded c H) as D. split; [congruence|].
    intros (r' & V' & L). destruct (value_decoded c v r' V') as (x' & E' & D'). congruence.
Qed.
Lemma c66_errors : forall c e, decode c = Ret (Err e) <->
  (exists ds, value_fails c (BadNumber ds) /\ e = BadNumberDecode ds) \/
  (exists r, value_fails c (BadKey r) /\ e = BadStringFromBytes (List.length c - List.length r)).
Proof.
  intros c e. split.
  - intros D. destruct (proj1 (all_total (List.length c)) c (le_n _)) as [(v' & r & V)|[(f & F)|H]].
    + destruct (value_decoded c v' r V) as (x & E & D'). congruence.
    + rewrite (failed_decoded c f F) in D. destruct f; cbn [result_of] in D; [discriminate| |]; injection D as <-; eauto.
    + rewrite (hang_decoded c H) in D. discriminate.
  - intros [(ds & F & ->)|(r & F & ->)]; now rewrite (failed_decoded _ _ F).
Qed.
Lemma c66_aborts : forall c, decode c = Panic <-> value_fails c Cut.
Proof.
  intros c. split.
  - intros D. destruct (proj1 (all_total (List.length c)) c (le_n _)) as [(v' & r & V)|[(f & F)|H]].
    + destruct (value_decoded c v' r V) as (x & E & D'). congruence.
    + rewrite (failed_decoded c f F) in D. destruct f; cbn [result_of] in D; [auto|discriminate|discriminate].
    + rewrite (hang_decoded c H) in D. discriminate.
  - intros F. now rewrite (failed_decoded _ _ F).
Qed.
Lemma c66_hangs : forall c, (forall fuel, decode_f fuel c 0 = OutOfFuel) <-> value_hangs c.
Proof.
  intros c. rewrite <- decode_decided. split.
  - intros D. destruct (proj1 (all_total (List.length c)) c (le_n _)) as [(v' & r & V)|[(f & F)|H]]; [| |auto].
    + destruct (value_decoded c v' r V) as (x & E & D'). congruence.
    + rewrite (failed_decoded c f F) in D. destruct f; discriminate.
  - apply hang_decoded.
Qed.
Lemma c66_unambiguous : forall c v r v' r', value c v r -> value c v' r' -> v = v' /\ r = r'.
Proof.
  intros c v r v' r' V V'. destruct (value_decoded c v r V) as (x & E & D), (value_decoded c v' r' V') as (x' & E' & D').
  rewrite D in D'. injection D' as -> L. split; [reflexivity|]. rewrite E in E'. assert (LL : List.length x = List.length x') by exact L. clear -E' LL. revert x' E' LL. induction x as [|a x IH]; intros [|b x'] E LL; try discriminate; cbn in *; [auto|]. injection E as _ E. injection LL as LL. eauto.
Qed.
Lemma c66_last : forall es k v, get_value_from_dict (MDictionary (gathered es)) k = Ok v <-> last_binding es k = Some v.
Proof.
  intros es k v. unfold get_value_from_dict. cbn [get_dict_content rbind]. rewrite <- gathered_fold, hm_get_fold.
  destruct (last_binding es k) as [w|]; cbn [hm_get]; split; congruence.
Qed.
