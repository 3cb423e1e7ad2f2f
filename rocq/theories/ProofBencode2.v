(** ProofBencode2: truncated inputs, numbers, encoders *)
From Coq Require Import Permutation Sorted.
From Verif Require Import Base Utf8 SpecBencode ProofBase ModelBencode ProofBencode.

(** ** C04: truncated values *)
Lemma app_split : forall A (p q a b : list A), p ++ q = a ++ b ->
  (exists l, a = p ++ l /\ l <> [] /\ q = l ++ b) \/ (exists l, p = a ++ l /\ b = l ++ q).
Proof.
  induction p as [|x p IH]; intros q a b H; cbn [app] in H.
  - destruct a as [|y a].
    + right. exists []. auto.
    + left. exists (y :: a). repeat split; auto. congruence.
  - destruct a as [|y a].
    + right. exists (x :: p). auto.
    + cbn [app] in H. injection H as -> H. destruct (IH _ _ _ H) as [(l & -> & Nl & ->)|(l & -> & ->)].
      * left. exists l. auto.
      * right. exists l. auto.
Qed.

Lemma get_digits_trunc : forall pre ds, Forall digit ds ->
  get_consecutive_digits (pre ++ ds) (List.length pre) = Panic.
Proof.
  intros pre ds H. unfold get_consecutive_digits. now rewrite skipn_app_len, scan_digits_all.
Qed.

Lemma Forall_app_l : forall A (P : A -> Prop) a b, Forall P (a ++ b) -> Forall P a.
Proof. intros. apply Forall_app in H. tauto. Qed.

Lemma parse_string_trunc : forall pre s p q, (lenN s < two64)%N -> bstr s = p ++ q -> q <> [] ->
  parse_string (pre ++ p) (List.length pre) = Panic.
Proof.
  intros pre s p q Ls E Nq. unfold bstr in E. change (s2b ":") with [58%N] in E.
  symmetry in E. apply app_split in E as [(l & E & Nl & ->)|(l & -> & E)].
  - unfold parse_string. rewrite get_digits_trunc; [reflexivity|].
    eapply Forall_app_l. rewrite <- E. apply decimal_digits.
  - destruct l as [|x l]; cbn [app] in E.
    + unfold parse_string. rewrite app_nil_r. rewrite get_digits_trunc; [reflexivity|].
      apply decimal_digits.
    + injection E as <- E. unfold parse_string. rewrite get_digits_app by auto using decimal_digits.
      rewrite parse_usize_decimal by auto. cbn [orbind].
      rewrite (proj2 (N.leb_gt _ _)); [reflexivity|].
      rewrite !lenN_app, lenN_cons. unfold lenN.
      apply (f_equal (@List.length N)) in E. rewrite app_length in E.
      destruct q; [congruence|]. cbn [List.length] in E. lia.
Qed.

Lemma decode_f_trunc : forall v, decodable text v -> forall fuel pre p q,
  (List.length (benc v) <= fuel)%nat -> benc v = p ++ q -> p <> [] -> q <> [] ->
  decode_f fuel (pre ++ p) (List.length pre) = Panic.
Proof.
  induction v as [n|s|l IH|d IH] using bval_ind'; intros D fuel pre p q Hf E Np Nq.
  - destruct fuel; [cbn in Hf; lia|]. cbn [benc] in E. change (s2b "i") with [105%N] in E.
    change (s2b "e") with [101%N] in E. destruct p as [|x p]; [congruence|].
    cbn [app] in E. injection E as <- E. cbn [decode_f]. rewrite nth_error_mid. cbn [N.eqb Pos.eqb].
    unfold parse_integer.
    replace (pre ++ 105%N :: p) with ((pre ++ [105%N]) ++ p) by (rewrite <- app_assoc; reflexivity).
    replace (S (List.length pre)) with (List.length (pre ++ [105%N])) by (rewrite app_length; cbn; lia).
    rewrite get_digits_trunc; [reflexivity|].
    symmetry in E. apply app_split in E as [(l & E & Nl & ->)|(l & -> & E)].
    + eapply Forall_app_l. rewrite <- E. apply decimal_digits.
    + destruct l as [|y l]; cbn [app] in E.
      * rewrite app_nil_r. apply decimal_digits.
      * injection E as <- E. destruct l; cbn in E; [congruence|congruence].
  - inversion D; subst. cbn [benc] in *. destruct (bstr_head s) as (b & t & Eb & Db & Nz).
    specialize (Nz H0). unfold digit in Db.
    destruct fuel; [rewrite Eb in Hf; cbn in Hf; lia|].
    pose proof (parse_string_trunc pre s p q H1 E Nq) as T.
    destruct p as [|x p]; [congruence|]. rewrite Eb in E. cbn [app] in E. injection E as <- _.
    cbn [decode_f]. rewrite nth_error_mid.
    rewrite (proj2 (N.eqb_neq _ _)) by lia. rewrite (proj2 (N.eqb_neq _ _)) by lia.
    rewrite (proj2 (N.eqb_neq _ _)) by lia.
    rewrite (proj2 (N.leb_le _ _)) by lia. rewrite (proj2 (N.leb_le _ _)) by lia. cbn [andb].
    now rewrite T.
  - inversion D; subst. cbn [benc] in *. change (s2b "l") with [108%N] in *.
    change (s2b "e") with [101%N] in *.
    destruct fuel; [cbn in Hf; lia|]. destruct p as [|x p]; [congruence|].
    cbn [app] in E. injection E as <- E.
    cbn [decode_f]. rewrite nth_error_mid. cbn [N.eqb Pos.eqb].
    assert (L : forall l, Forall (fun v => decodable text v -> forall fuel pre p q,
        (List.length (benc v) <= fuel)%nat -> benc v = p ++ q -> p <> [] -> q <> [] ->
        decode_f fuel (pre ++ p) (List.length pre) = Panic) l ->
      Forall (decodable text) l ->
      forall fuel pre p q acc, (List.length (List.concat (map benc l)) + 1 <= fuel)%nat ->
      List.concat (map benc l) ++ [101%N] = p ++ q -> q <> [] ->
      list_f fuel (pre ++ p) (List.length pre) acc = Panic).
    { clear. induction l as [|v l IHl]; intros IH D fuel pre p q acc Hf E Nq.
      - cbn [map List.concat app] in *. destruct fuel; [lia|]. cbn [list_f].
        assert (p = []). { destruct p; auto. cbn in E. injection E as _ E. destruct p; cbn in E; congruence. }
        subst p. rewrite app_nil_r. unfold get_current_byte, index.
        now rewrite (proj2 (nth_error_None pre _)) by lia.
      - inversion IH; inversion D; subst. cbn [map List.concat] in *. rewrite app_length in *.
        pose proof (benc_len_pos _ _ H5) as Lp.
        destruct fuel; [lia|]. cbn [list_f]. unfold get_current_byte, index.
        destruct p as [|x p].
        { rewrite app_nil_r. now rewrite (proj2 (nth_error_None pre _)) by lia. }
        rewrite nth_error_mid. cbn [obind].
        destruct (benc_head _ _ H5) as (b & t & Eb & Nb).
        assert (x = b) by (rewrite Eb in E; cbn in E; congruence). subst x.
        rewrite (proj2 (N.eqb_neq _ _)) by auto.
        rewrite <- app_assoc in E. symmetry in E.
        apply app_split in E as [(r & E & Nr & ->)|(r & E & E2)].
        + rewrite (H1 H5 fuel pre (b :: p) r); auto; [lia|congruence].
        + rewrite E. rewrite decode_f_benc by (auto; lia). cbn [orbind].
          rewrite app_assoc, <- app_length. eapply IHl; eauto. lia. }
    replace (pre ++ 108%N :: p) with ((pre ++ [108%N]) ++ p) by (rewrite <- app_assoc; reflexivity).
    replace (S (List.length pre)) with (List.length (pre ++ [108%N])) by (rewrite app_length; cbn; lia).
    eapply L; eauto. cbn [app List.length] in Hf. rewrite app_length in Hf. cbn [List.length] in Hf. lia.
  - inversion D; subst. cbn [benc] in *. change (s2b "d") with [100%N] in *.
    change (s2b "e") with [101%N] in *.
    destruct fuel; [cbn in Hf; lia|]. destruct p as [|x p]; [congruence|].
    cbn [app] in E. injection E as <- E.
    cbn [decode_f]. rewrite nth_error_mid. cbn [N.eqb Pos.eqb].
    set (enc := fun kv : bytes * bval => bstr (fst kv) ++ benc (snd kv)) in *.
    assert (L : forall d, Forall (fun kv => decodable text (snd kv) -> forall fuel pre p q,
        (List.length (benc (snd kv)) <= fuel)%nat -> benc (snd kv) = p ++ q -> p <> [] -> q <> [] ->
        decode_f fuel (pre ++ p) (List.length pre) = Panic) d ->
      Forall (fun kv => text (fst kv) /\ (N.of_nat (List.length (fst kv)) < 2 ^ 64)%N) d ->
      Forall (fun kv => decodable text (snd kv)) d ->
      forall fuel pre p q acc, (List.length (List.concat (map enc d)) + 1 <= fuel)%nat ->
      List.concat (map enc d) ++ [101%N] = p ++ q -> q <> [] ->
      dict_f fuel (pre ++ p) (List.length pre) acc = Panic).
    { clear. induction d as [|[k v] d IHd]; intros IH T D fuel pre p q acc Hf E Nq.
      - cbn [map List.concat app] in *. destruct fuel; [lia|]. cbn [dict_f].
        assert (p = []). { destruct p; auto. cbn in E. injection E as _ E. destruct p; cbn in E; congruence. }
        subst p. rewrite app_nil_r. unfold get_current_byte, index.
        now rewrite (proj2 (nth_error_None pre _)) by lia.
      - inversion IH; inversion T; inversion D; subst. cbn [map List.concat fst snd] in *.
        destruct H5 as [Tk Lk].
        change (enc (k, v)) with (bstr k ++ benc v) in *. rewrite !app_length in *.
        pose proof (benc_len_pos _ _ H9) as Lp.
        destruct (bstr_head k) as (b & t & Eb & Nb & _).
        assert (Lk2 : (1 <= List.length (bstr k))%nat) by (rewrite Eb; cbn; lia).
        destruct fuel; [lia|]. cbn [dict_f]. unfold get_current_byte, index.
        destruct p as [|x p].
        { rewrite app_nil_r. now rewrite (proj2 (nth_error_None pre _)) by lia. }
        rewrite nth_error_mid. cbn [obind].
        assert (x = b) by (rewrite Eb in E; cbn in E; congruence). subst x.
        unfold digit in Nb. rewrite (proj2 (N.eqb_neq _ _)) by lia.
        rewrite <- !app_assoc in E. symmetry in E.
        apply app_split in E as [(r & E & Nr & ->)|(r & E & E2)].
        + now rewrite (parse_string_trunc pre k (b :: p) r Lk E Nr).
        + rewrite E. rewrite parse_string_app by auto. cbn [orbind]. rewrite Tk.
          symmetry in E2. apply app_split in E2 as [(r2 & E2 & Nr & ->)|(r2 & E2 & E3)].
          * destruct r as [|y r].
            -- rewrite app_nil_r, <- app_length.
               destruct fuel as [|fuel]; [lia|]. cbn [decode_f].
               rewrite (proj2 (nth_error_None (pre ++ bstr k) _)) by lia. cbn [orbind dict_f].
               unfold get_current_byte, index.
               now rewrite (proj2 (nth_error_None (pre ++ bstr k) _)) by lia.
            -- rewrite app_assoc, <- app_length.
               rewrite (H1 H9 fuel (pre ++ bstr k) (y :: r) r2); auto; [lia|congruence].
          * rewrite E2, app_assoc, <- app_length.
            rewrite decode_f_benc by (auto; lia). cbn [orbind].
            rewrite app_assoc, <- app_length. eapply IHd; eauto. lia. }
    replace (pre ++ 100%N :: p) with ((pre ++ [100%N]) ++ p) by (rewrite <- app_assoc; reflexivity).
    replace (S (List.length pre)) with (List.length (pre ++ [100%N])) by (rewrite app_length; cbn; lia).
    eapply L; eauto. cbn [app List.length] in Hf. rewrite app_length in Hf. cbn [List.length] in Hf. lia.
Qed.

Lemma decode_trunc : forall v p q, decodable text v -> benc v = p ++ q -> p <> [] -> q <> [] ->
  decode p = Panic.
Proof.
  intros v p q D E Np Nq.
  eapply (decode_any_fuel (List.length (benc v))); [|congruence].
  apply (decode_f_trunc v D _ [] p q); auto.
Qed.

(** ** C05: numbers *)
Lemma decode_integer : forall ds b rest, Forall digit ds -> ~ digit b ->
  decode (105%N :: ds ++ b :: rest)
  = if (match ds with [] => false | _ => true end) && (numeral ds <? 2 ^ 64)%N
    then Ret (Ok (MInteger (numeral ds), (List.length ds + 2)%nat))
    else Ret (Err (BadNumberDecode ds)).
Proof.
  intros ds b rest F Hb.
  assert (Hb' : is_digit b = false).
  { destruct (is_digit b) eqn:E; auto. exfalso. apply Hb. now apply digit_is_digit. }
  unfold decode, decode_at. rewrite Nat.add_comm. cbn [Nat.add decode_f nth_error]. cbn [N.eqb Pos.eqb].
  unfold parse_integer.
  pose proof (get_digits_app [105%N] ds b rest F Hb') as G. cbn [app List.length] in G. rewrite G.
  unfold parse_usize. rewrite digits_value_numeral, two64_pow.
  destruct ds as [|d ds]; [reflexivity|]. cbn [andb].
  destruct (_ <? _)%N; cbn [orbind]; auto. do 3 f_equal. lia.
Qed.

Lemma decode_string_prefix : forall ds b rest, Forall digit ds -> ~ digit b ->
  (exists d t, ds = d :: t /\ d <> 48%N) ->
  decode (ds ++ b :: rest)
  = if (numeral ds <? 2 ^ 64)%N then
      if (numeral ds <=? N.of_nat (List.length rest))%N
      then Ret (Ok (MString (firstn (N.to_nat (numeral ds)) rest),
                    (List.length ds + 1 + N.to_nat (numeral ds))%nat))
      else Panic
    else Ret (Err (BadNumberDecode ds)).
Proof.
  intros ds b rest F Hb (d & t & E & Nz).
  assert (Hb' : is_digit b = false).
  { destruct (is_digit b) eqn:Eb; auto. exfalso. apply Hb. now apply digit_is_digit. }
  assert (Dd : digit d) by (subst; now apply Forall_inv in F). unfold digit in Dd.
  assert (N0 : nth_error (ds ++ b :: rest) 0 = Some d) by (subst; reflexivity).
  unfold decode, decode_at. rewrite Nat.add_comm. cbn [Nat.add decode_f]. rewrite N0.
  rewrite (proj2 (N.eqb_neq _ _)) by lia. rewrite (proj2 (N.eqb_neq _ _)) by lia.
  rewrite (proj2 (N.eqb_neq _ _)) by lia.
  rewrite (proj2 (N.leb_le _ _)) by lia. rewrite (proj2 (N.leb_le _ _)) by lia. cbn [andb].
  assert (PU : parse_usize ds = if (numeral ds <? 2 ^ 64)%N then Some (numeral ds) else None).
  { unfold parse_usize. rewrite digits_value_numeral, two64_pow. subst ds. reflexivity. }
  pose proof (get_digits_app [] ds b rest F Hb') as G. cbn [app List.length] in G.
  unfold parse_string. rewrite G, PU.
  destruct (numeral ds <? 2 ^ 64)%N; [|reflexivity]. cbn [orbind].
  set (n := numeral ds).
  destruct (n <=? N.of_nat (List.length rest))%N eqn:Le.
  - apply N.leb_le in Le. rewrite (proj2 (N.leb_le _ _)).
    2:{ rewrite lenN_app, lenN_cons. unfold lenN. lia. }
    replace (ds ++ b :: rest)
      with ((ds ++ [b]) ++ firstn (N.to_nat n) rest ++ skipn (N.to_nat n) rest)
      by (rewrite firstn_skipn, <- app_assoc; reflexivity).
    rewrite slice_app.
    + cbn [obind orbind]. do 3 f_equal. lia.
    + rewrite app_length. cbn [List.length]. lia.
    + rewrite app_length, firstn_length. cbn [List.length]. lia.
  - apply N.leb_gt in Le. rewrite (proj2 (N.leb_gt _ _)); [reflexivity|].
    rewrite lenN_app, lenN_cons. unfold lenN. lia.
Qed.

(** ** C07, C08: encoders *)
Lemma enc_bytes_canonical : forall s, enc_bytes s = benc (BStr s).
Proof. intros s. unfold enc_bytes, benc, bstr. now rewrite dec_decimal. Qed.

Lemma enc_usize_canonical : forall n, enc_usize n = benc (BInt n).
Proof. intros n. unfold enc_usize, benc. now rewrite dec_decimal. Qed.

Lemma fold_app_concat : forall A (f : A -> bytes) l acc,
  fold_left (fun acc el => acc ++ f el) l acc = acc ++ List.concat (map f l).
Proof.
  induction l as [|x l IH]; intros acc; cbn [fold_left map List.concat]; [now rewrite app_nil_r|].
  now rewrite IH, app_assoc.
Qed.

Lemma enc_list_canonical : forall A (enc : A -> bytes) (val : A -> bval) l,
  (forall x, In x l -> enc x = benc (val x)) -> enc_list enc l = benc (BList (map val l)).
Proof.
  intros A enc val l H. unfold enc_list. rewrite fold_app_concat. cbn [benc].
  rewrite map_map. rewrite <- app_assoc. do 2 f_equal. f_equal. now apply map_ext_in.
Qed.

Lemma ascii_chars : forall s, ascii s -> chars_count s = lenN s.
Proof.
  intros s H. unfold chars_count. f_equal. induction s as [|b s IH]; auto.
  inversion H; subst. cbn [filter]. unfold is_cont, in_range.
  rewrite (proj2 (N.leb_gt _ _)) by lia. cbn [andb negb]. f_equal. auto.
Qed.

Lemma ascii_utf8 : forall s, ascii s -> utf8_valid s = true.
Proof.
  induction s as [|b s IH]; intros H; auto. inversion H; subst. cbn.
  rewrite (proj2 (N.ltb_lt _ _)) by auto. auto.
Qed.

Lemma enc_string_ascii : forall s, ascii s -> enc_string s = bstr s.
Proof.
  intros s H. unfold enc_string, bstr. now rewrite dec_decimal, ascii_chars.
Qed.

Lemma chars_le : forall s, (chars_count s <= lenN s)%N.
Proof.
  intros s. unfold chars_count, lenN.
  assert (List.length (filter (fun b => negb (is_cont b)) s) <= List.length s)%nat; [|lia].
  induction s as [|b s IH]; cbn; [lia|]. destruct (negb (is_cont b)); cbn; lia.
Qed.

Lemma chars_lt : forall s b, In b s -> is_cont b = true -> (chars_count s < lenN s)%N.
Proof.
  intros s b. unfold chars_count. induction s as [|x s IH]; intros Hi Hb; [contradiction|].
  cbn [filter]. destruct Hi as [->|Hi].
  - rewrite Hb. cbn [negb]. rewrite lenN_cons. pose proof (chars_le s) as C. unfold chars_count in C. lia.
  - specialize (IH Hi Hb). destruct (negb (is_cont x)); rewrite ?lenN_cons; lia.
Qed.

Lemma ascii_iff_no_cont : forall s, utf8_valid s = true -> (forall b, In b s -> is_cont b = false) -> ascii s.
Proof.
  intros s U H. destruct s as [|a t]; [constructor|].
  revert a t U H.
  assert (G : forall n s, (List.length s <= n)%nat -> utf8_valid s = true ->
    (forall b, In b s -> is_cont b = false) -> ascii s).
  { induction n as [|n IH]; intros s L U H; [destruct s; [constructor|cbn in L; lia]|].
    destruct s as [|a t]; [constructor|]. cbn [utf8_valid] in U.
    destruct (a <? 128)%N eqn:E.
    - apply N.ltb_lt in E. constructor; auto. apply IH; auto; [cbn in L; lia|].
      intros b Hb. apply H. cbn. auto.
    - exfalso. destruct t as [|b t2]; [congruence|].
      assert (Cb : is_cont b = false) by (apply H; cbn; auto).
      destruct (in_range 194 223 a); [rewrite Cb in U; discriminate|].
      destruct t2 as [|c t3]; [congruence|].
      assert (Cc : is_cont c = false) by (apply H; cbn; auto).
      destruct (in_range 224 239 a); [rewrite Cc, andb_false_r in U; discriminate|].
      destruct t3 as [|d t4]; [congruence|].
      rewrite Cc, andb_false_r in U. destruct (in_range 240 244 a); discriminate. }
  intros a t U H. eapply G; eauto.
Qed.

Lemma digits_sep : forall a b x y, Forall digit a -> Forall digit b ->
  a ++ 58%N :: x = b ++ 58%N :: y -> a = b /\ x = y.
Proof.
  induction a as [|d a IH]; intros b x y Fa Fb H.
  - destruct b as [|e b]; cbn [app] in H; [injection H as ->; auto|].
    injection H as <- _. apply Forall_inv in Fb. unfold digit in Fb. lia.
  - destruct b as [|e b]; cbn [app] in H.
    + injection H as -> _. apply Forall_inv in Fa. unfold digit in Fa. lia.
    + injection H as <- H. inversion Fa; inversion Fb; subst.
      destruct (IH b x y) as [-> ->]; auto.
Qed.

Lemma enc_string_not_canonical : forall s v, utf8_valid s = true -> ~ ascii s -> enc_string s <> benc v.
Proof.
  intros s v U NA E.
  assert (C : (chars_count s < lenN s)%N).
  { destruct (existsb is_cont s) eqn:Ex.
    - apply existsb_exists in Ex as (b & Hb & Cb). eapply chars_lt; eauto.
    - exfalso. apply NA. apply ascii_iff_no_cont; auto. intros b Hb.
      destruct (is_cont b) eqn:Eb; auto. assert (existsb is_cont s = true); [|congruence].
      apply existsb_exists. eauto. }
  unfold enc_string in E. rewrite dec_decimal in E.
  destruct (decimal_head (chars_count s)) as (d & t & Ed & Dd & _).
  destruct v as [n|r|l|l]; cbn [benc] in E.
  - rewrite Ed in E. cbn [app s2b list_ascii_of_string map] in E. injection E as -> _. destruct Dd as [_ Dd]. now apply Dd.
  - unfold bstr in E. change (s2b ":") with [58%N] in E. cbn [app] in E.
    apply digits_sep in E as [E1 E2]; auto using decimal_digits.
    apply decimal_inj in E1. subst. unfold lenN in *. lia.
  - rewrite Ed in E. cbn [app s2b list_ascii_of_string map] in E. injection E as -> _. destruct Dd as [_ Dd]. now apply Dd.
  - rewrite Ed in E. cbn [app s2b list_ascii_of_string map] in E. injection E as -> _. destruct Dd as [_ Dd]. now apply Dd.
Qed.

(** sorting *)
Lemma bytes_leb_total : forall a b, bytes_leb a b = true \/ bytes_leb b a = true.
Proof.
  induction a as [|x a IH]; destruct b as [|y b]; cbn; auto.
  destruct (N.lt_trichotomy x y) as [L|[->|L]].
  - left. rewrite (proj2 (N.ltb_lt _ _)) by auto. reflexivity.
  - rewrite N.ltb_irrefl, N.eqb_refl. cbn. auto.
  - right. rewrite (proj2 (N.ltb_lt _ _)) by auto. reflexivity.
Qed.

Lemma bytes_leb_lex : forall a b, bytes_leb a b = true -> a <> b -> lex_lt a b.
Proof.
  induction a as [|x a IH]; destruct b as [|y b]; cbn; intros H N; try congruence; auto.
  apply orb_true_iff in H as [H|H].
  - left. now apply N.ltb_lt.
  - apply andb_true_iff in H as [H1 H2]. apply N.eqb_eq in H1. subst. right. split; auto.
    apply IH; auto. congruence.
Qed.

Lemma lex_lt_trans : forall a b c, lex_lt a b -> lex_lt b c -> lex_lt a c.
Proof.
  induction a as [|x a IH]; destruct b as [|y b]; destruct c as [|z c]; cbn; try tauto.
  intros [H1|[-> H1]] [H2|[-> H2]]; auto.
  - left. lia.
  - right. split; auto. eauto.
Qed.

Lemma lex_lt_irrefl : forall a, ~ lex_lt a a.
Proof. induction a as [|x a IH]; cbn; auto. intros [H|[_ H]]; auto. lia. Qed.

Lemma insert_sorted_perm : forall V (kv : bytes * V) l, Permutation (insert_sorted kv l) (kv :: l).
Proof.
  intros V kv l. induction l as [|kv' t IH]; cbn [insert_sorted]; auto.
  destruct (bytes_leb _ _); auto. etransitivity; [apply perm_skip, IH|]. apply perm_swap.
Qed.

Lemma sort_perm : forall V (l : hmap V), Permutation (sort_by_key l) l.
Proof.
  intros V. induction l as [|kv l IH]; cbn [sort_by_key fold_right]; auto.
  etransitivity; [apply insert_sorted_perm|]. now apply perm_skip.
Qed.

Definition klt {V} (a b : bytes * V) : Prop := lex_lt (fst a) (fst b).

Lemma insert_sorted_sorted : forall V (kv : bytes * V) l,
  ~ In (fst kv) (map fst l) -> StronglySorted klt l -> StronglySorted klt (insert_sorted kv l).
Proof.
  intros V kv l. induction l as [|kv' t IH]; intros Ni S; cbn [insert_sorted].
  - repeat constructor.
  - inversion S; subst. destruct (bytes_leb (fst kv) (fst kv')) eqn:E.
    + assert (K : klt kv kv'). { apply bytes_leb_lex; auto. intros Eq. apply Ni. cbn. auto. }
      constructor; auto. constructor; auto.
      rewrite Forall_forall in *. intros x Hx. specialize (H2 x Hx). unfold klt in *.
      eapply lex_lt_trans; eauto.
    + constructor.
      * apply IH; auto. intros Hi. apply Ni. cbn. auto.
      * assert (K : klt kv' kv).
        { apply bytes_leb_lex; [destruct (bytes_leb_total (fst kv) (fst kv')); congruence|].
          intros Eq. apply Ni. cbn. auto. }
        rewrite Forall_forall in *. intros x Hx.
        apply (Permutation_in _ (insert_sorted_perm V kv t)) in Hx as [<-|Hx]; auto.
Qed.

Lemma sort_sorted : forall V (l : hmap V), NoDup (map fst l) -> StronglySorted klt (sort_by_key l).
Proof.
  intros V. induction l as [|kv l IH]; intros ND; cbn [sort_by_key fold_right]; [constructor|].
  inversion ND; subst. apply insert_sorted_sorted.
  - intros Hi. apply H1. fold (sort_by_key l) in Hi.
    apply (Permutation_in _ (Permutation_map fst (sort_perm V l))) in Hi. auto.
  - now apply IH.
Qed.

Lemma sorted_unique : forall V (a b : hmap V), StronglySorted klt a -> StronglySorted klt b ->
  Permutation a b -> a = b.
Proof.
  intros V. induction a as [|x a IH]; intros b Sa Sb P.
  - apply Permutation_nil in P. auto.
  - destruct b as [|y b]; [symmetry in P; apply Permutation_nil in P; congruence|].
    inversion Sa; inversion Sb; subst. rewrite Forall_forall in *.
    assert (x = y).
    { pose proof (Permutation_in x P (or_introl eq_refl)) as [->|Hx]; auto.
      pose proof (Permutation_in y (Permutation_sym P) (or_introl eq_refl)) as [->|Hy]; auto.
      exfalso. apply (lex_lt_irrefl (fst x)). eapply lex_lt_trans; [apply (H2 _ Hy)|apply (H6 _ Hx)]. }
    subst y. f_equal. apply IH; auto. now apply Permutation_cons_inv in P.
Qed.

Lemma sort_perm_eq : forall V (a b : hmap V), NoDup (map fst a) -> Permutation a b ->
  sort_by_key a = sort_by_key b.
Proof.
  intros V a b ND P. apply sorted_unique.
  - now apply sort_sorted.
  - apply sort_sorted. eapply Permutation_NoDup; [|exact ND]. now apply Permutation_map.
  - etransitivity; [apply sort_perm|]. etransitivity; [exact P|]. symmetry. apply sort_perm.
Qed.

Lemma enc_map_form : forall V (enc : V -> bytes) m,
  enc_map enc m = [100%N] ++ List.concat (map (fun kv => enc_string (fst kv) ++ enc (snd kv)) (sort_by_key m)) ++ [101%N].
Proof.
  intros V enc m. unfold enc_map.
  rewrite (fold_app_concat (bytes * V) (fun kv => enc_string (fst kv) ++ enc (snd kv))).
  now rewrite <- app_assoc.
Qed.

Lemma klt_keys : forall V (l : hmap V), StronglySorted klt l -> StronglySorted lex_lt (map fst l).
Proof.
  intros V. induction l as [|x l IH]; intros S; cbn; constructor; inversion S; subst; auto.
  rewrite Forall_map. auto.
Qed.

Lemma enc_map_canonical : forall V (enc : V -> bytes) (val : V -> bval) m,
  NoDup (map fst m) -> Forall (fun kv => ascii (fst kv)) m ->
  (forall kv, In kv m -> enc (snd kv) = benc (val (snd kv))) ->
  exists m', Permutation m m' /\ StronglySorted lex_lt (map fst m') /\
    enc_map enc m = benc (BDict (map (fun kv => (fst kv, val (snd kv))) m')).
Proof.
  intros V enc val m ND A H. exists (sort_by_key m).
  split; [symmetry; apply sort_perm|]. split; [apply klt_keys, sort_sorted; auto|].
  rewrite enc_map_form. cbn [benc]. f_equal. f_equal. f_equal. rewrite map_map. cbn [fst snd].
  apply map_ext_in. intros kv Hi. apply (Permutation_in _ (sort_perm V m)) in Hi.
  rewrite H by auto. rewrite Forall_forall in A. now rewrite enc_string_ascii by auto.
Qed.

(** ** property-level lemmas *)
Lemma c01 : forall v suf, decodable text v -> distinct_keys v ->
  decode (benc v ++ suf) = Ret (Ok (as_metainfo v, List.length (benc v))).
Proof. intros v suf D K. rewrite <- mi_as_metainfo by auto. now apply decode_benc. Qed.

Lemma c03 : forall c,
  (exists r, r <> OutOfFuel /\ forall fuel, (2 * List.length c + 2 <= fuel)%nat -> decode_f fuel c 0 = r)
  \/ (forall fuel, decode_f fuel c 0 = OutOfFuel).
Proof.
  intros c. destruct (decode c) as [r| |] eqn:E.
  - left. exists (Ret r). split; [congruence|]. intros fuel L.
    eapply decode_f_mono; [exact E|congruence|lia].
  - left. exists Panic. split; [congruence|]. intros fuel L.
    eapply decode_f_mono; [exact E|congruence|lia].
  - right. now apply decode_decided.
Qed.

Lemma c06 : forall es suf, decodable text (BDict es) -> Forall (fun kv => distinct_keys (snd kv)) es ->
  exists m n, decode (benc (BDict es) ++ suf) = Ret (Ok (m, n)) /\
  forall k,
    (last_binding es k = None ->
       get_value_from_dict m k = Err (NoKeyInDictionary k) /\
       get_integer_from_dict m k = Err (NoKeyInDictionary k) /\
       get_bytes_from_dict m k = Err (NoKeyInDictionary k) /\
       get_string_from_dict m k = Err (NoKeyInDictionary k) /\
       get_list_from_dict m k = Err (NoKeyInDictionary k)) /\
    (forall v, last_binding es k = Some v ->
       get_value_from_dict m k = Ok (as_metainfo v) /\
       (forall i, get_integer_from_dict m k = Ok i <-> v = BInt i) /\
       (forall s, get_bytes_from_dict m k = Ok s <-> v = BStr s) /\
       (forall s, get_string_from_dict m k = Ok s <-> v = BStr s /\ text s) /\
       (forall l, get_list_from_dict m k = Ok l <-> exists vs, v = BList vs /\ l = map as_metainfo vs)).
Proof.
  intros es suf D K. eexists _, _. split; [apply decode_benc; auto|]. intros k.
  assert (G : hm_get (fold_left (fun acc kv => hm_insert acc (fst kv) (snd kv))
               (map (fun kv : bytes * bval => (fst kv, mi (snd kv))) es) []) k
             = option_map mi (last_binding es k)).
  { rewrite hm_get_fold. cbn [hm_get].
    assert (LB : forall es, last_binding (map (fun kv : bytes * bval => (fst kv, mi (snd kv))) es) k
      = option_map mi (last_binding es k)).
    { clear. induction es as [|[k0 v0] es IH]; [reflexivity|]. cbn [map fst snd].
      rewrite !last_binding_cons, IH. destruct (last_binding es k); cbn [option_map]; auto.
      destruct (list_eq_dec N.eq_dec k0 k); reflexivity. }
    rewrite LB. destruct (last_binding es k); reflexivity. }
  unfold get_value_from_dict, get_integer_from_dict, get_bytes_from_dict, get_string_from_dict,
    get_list_from_dict. cbn [mi get_dict_content rbind].
  split.
  - intros E. rewrite G, E. cbn [option_map]. auto.
  - intros v E. rewrite G, E. cbn [option_map].
    assert (Dv : distinct_keys v).
    { clear -K E. induction es as [|[k0 v0] es IH]; [discriminate|].
      inversion K; subst. rewrite last_binding_cons in E.
      destruct (last_binding es k); [injection E as ->; auto|].
      destruct (list_eq_dec N.eq_dec k0 k); [injection E as <-; auto|discriminate]. }
    rewrite (mi_as_metainfo v Dv).
    split; [reflexivity|]. split; [|split; [|split]].
    + intros i. destruct v; cbn; split; intros H; try congruence.
    + intros s. destruct v; cbn; split; intros H; try congruence.
    + intros s. unfold text. destruct v as [n|s'|l|d]; cbn; split; intros H; try congruence;
        try (destruct H; congruence).
      * destruct (utf8_valid s') eqn:U; [|discriminate]. injection H as <-. auto.
      * destruct H as [H U]. injection H as ->. now rewrite U.
    + intros l. destruct v as [n|s'|vs|d]; cbn; split; intros H; try congruence;
        try (destruct H as (? & ? & ?); congruence).
      * injection H as <-. eauto.
Qed.

Definition N_lt_dec (a b : N) : {(a < b)%N} + {~ (a < b)%N}.
Proof. destruct (a <? b)%N eqn:E; [left; now apply N.ltb_lt|right; apply N.ltb_ge in E; lia]. Defined.

Lemma c07_string : forall s, text s -> ((exists v, enc_string s = benc v) <-> ascii s).
Proof.
  intros s U. split.
  - intros [v E]. destruct (Forall_dec (fun b => (b < 128)%N) (fun b => N_lt_dec b 128) s) as [A|NA]; auto.
    exfalso. eapply enc_string_not_canonical; eauto.
  - intros A. exists (BStr s). now apply enc_string_ascii.
Qed.

Lemma c08_order : forall V (enc : V -> bytes) m m', NoDup (map fst m) -> Permutation m m' ->
  enc_map enc m = enc_map enc m'.
Proof. intros V enc m m' ND P. rewrite !enc_map_form. now rewrite (sort_perm_eq V m m'). Qed.

Lemma c08_decode : forall V (enc : V -> bytes) (val : V -> bval) m suf,
  NoDup (map fst m) -> Forall (fun kv => ascii (fst kv) /\ (lenN (fst kv) < 2 ^ 64)%N) m ->
  (forall kv, In kv m -> enc (snd kv) = benc (val (snd kv)) /\
                         decodable text (val (snd kv)) /\ distinct_keys (val (snd kv))) ->
  exists m', Permutation m m' /\
    decode (enc_map enc m ++ suf)
    = Ret (Ok (MDictionary (map (fun kv => (fst kv, as_metainfo (val (snd kv)))) m'),
               List.length (enc_map enc m))).
Proof.
  intros V enc val m suf ND A H. rewrite Forall_forall in A.
  destruct (enc_map_canonical V enc val m ND) as (m' & P & S & E).
  { rewrite Forall_forall. intros kv Hi. apply A; auto. }
  { intros kv Hi. apply H; auto. }
  exists m'. split; auto. rewrite E. rewrite c01.
  - cbn [as_metainfo]. rewrite map_map. reflexivity.
  - constructor; rewrite Forall_map; rewrite Forall_forall; intros kv Hi; cbn [fst snd];
      apply (Permutation_in _ (Permutation_sym P)) in Hi.
    + destruct (A kv Hi). split; auto. now apply ascii_utf8.
    + apply H; auto.
  - constructor.
    + rewrite map_map. cbn [fst]. eapply Permutation_NoDup; [|exact ND]. now apply Permutation_map.
    + rewrite Forall_map, Forall_forall. intros kv Hi. cbn [snd].
      apply (Permutation_in _ (Permutation_sym P)) in Hi. apply H; auto.
Qed.
