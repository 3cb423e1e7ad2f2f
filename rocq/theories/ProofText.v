(** ProofText: proofs for PropText *)
From Coq Require Import Lia.
From Verif Require Import Base Utf8 ModelTorrent ModelWriter ModelCache ProofBase ProofCache ProofCache2 SpecBencode SpecTorrent SpecWriter SpecCache SpecText.

(** ** UTF-8 *)

Ltac bools := repeat match goal with
  | H : (_ && _)%bool = true |- _ => apply andb_true_iff in H as [? ?]
  | H : (_ <=? _)%N = true |- _ => apply N.leb_le in H
  | H : (_ <? _)%N = true |- _ => apply N.ltb_lt in H
  | H : (_ <? _)%N = false |- _ => apply N.ltb_ge in H
  end.

Lemma in_range_iff : forall lo hi b, in_range lo hi b = true <-> (lo <= b <= hi)%N.
Proof. intros. unfold in_range. rewrite andb_true_iff, !N.leb_le. tauto. Qed.
Lemma in_range_no : forall lo hi b, in_range lo hi b = false <-> (b < lo \/ hi < b)%N.
Proof. intros. unfold in_range. rewrite andb_false_iff, !N.leb_gt. tauto. Qed.

Lemma utf8_step : forall n b t, utf8 n b -> utf8_valid (b ++ t) = utf8_valid t.
Proof.
  intros n b t U. destruct U as [n L|x y X Y G|x y z X Y Z G S|x y z w X Y Z W G S]; cbn [app utf8_valid].
  - rewrite (proj2 (N.ltb_lt n 128)) by auto. reflexivity.
  - rewrite (proj2 (N.ltb_ge (192 + x) 128)) by lia. rewrite (proj2 (in_range_iff 194 223 (192 + x))) by lia.
    unfold is_cont. rewrite (proj2 (in_range_iff 128 191 (128 + y))) by lia. reflexivity.
  - rewrite (proj2 (N.ltb_ge (224 + x) 128)) by lia. rewrite (proj2 (in_range_no 194 223 (224 + x))) by lia.
    rewrite (proj2 (in_range_iff 224 239 (224 + x))) by lia. unfold is_cont. rewrite (proj2 (in_range_iff 128 191 (128 + z))) by lia.
    unfold scalar in S.
    destruct (N.eqb_spec (224 + x) 224) as [E|E].
    + rewrite (proj2 (in_range_iff 160 191 (128 + y))) by lia. reflexivity.
    + destruct (N.eqb_spec (224 + x) 237) as [E'|E'].
      * rewrite (proj2 (in_range_iff 128 159 (128 + y))) by lia. reflexivity.
      * rewrite (proj2 (in_range_iff 128 191 (128 + y))) by lia. reflexivity.
  - rewrite (proj2 (N.ltb_ge (240 + x) 128)) by lia. rewrite (proj2 (in_range_no 194 223 (240 + x))) by lia.
    rewrite (proj2 (in_range_no 224 239 (240 + x))) by lia. unfold scalar in S.
    rewrite (proj2 (in_range_iff 240 244 (240 + x))) by lia. unfold is_cont.
    rewrite (proj2 (in_range_iff 128 191 (128 + z))), (proj2 (in_range_iff 128 191 (128 + w))) by lia.
    destruct (N.eqb_spec (240 + x) 240) as [E|E].
    + rewrite (proj2 (in_range_iff 144 191 (128 + y))) by lia. reflexivity.
    + destruct (N.eqb_spec (240 + x) 244) as [E'|E'].
      * rewrite (proj2 (in_range_iff 128 143 (128 + y))) by lia. reflexivity.
      * rewrite (proj2 (in_range_iff 128 191 (128 + y))) by lia. reflexivity.
Qed.

Lemma utf8_first : forall l, l <> [] -> utf8_valid l = true -> exists n b t, l = b ++ t /\ utf8 n b /\ utf8_valid t = true.
Proof.
  intros [|a t] NE H; [congruence|]. cbn [utf8_valid] in H.
  destruct (N.ltb_spec a 128) as [A|A]; [exists a, [a], t; repeat split; auto; constructor; auto|].
  destruct t as [|b t2]; [discriminate|].
  destruct (in_range 194 223 a) eqn:R2.
  { apply in_range_iff in R2. apply andb_true_iff in H as [B H]. apply in_range_iff in B.
    exists (64 * (a - 192) + (b - 128))%N, [192 + (a - 192); 128 + (b - 128)]%N, t2. split; [|split; [constructor; lia|auto]].
    cbn [app]. repeat f_equal; lia. }
  apply in_range_no in R2. destruct t2 as [|c t3]; [discriminate|].
  destruct (in_range 224 239 a) eqn:R3.
  { apply in_range_iff in R3. apply andb_true_iff in H as [H V]. apply andb_true_iff in H as [B C]. apply in_range_iff in C.
    assert (BB : (128 <= b <= 191 /\ (a = 224 -> 160 <= b) /\ (a = 237 -> b <= 159))%N).
    { destruct (N.eqb_spec a 224); [|destruct (N.eqb_spec a 237)]; apply in_range_iff in B; lia. }
    exists (4096 * (a - 224) + 64 * (b - 128) + (c - 128))%N, [224 + (a - 224); 128 + (b - 128); 128 + (c - 128)]%N, t3.
    split; [cbn [app]; repeat f_equal; lia|]. split; [|auto]. constructor; try lia. unfold scalar. lia. }
  apply in_range_no in R3. destruct t3 as [|d t4]; [discriminate|].
  destruct (in_range 240 244 a) eqn:R4; [|discriminate].
  apply in_range_iff in R4. apply andb_true_iff in H as [H V]. apply andb_true_iff in H as [H D]. apply andb_true_iff in H as [B C].
  apply in_range_iff in C, D.
  assert (BB : (128 <= b <= 191 /\ (a = 240 -> 144 <= b) /\ (a = 244 -> b <= 143))%N).
  { destruct (N.eqb_spec a 240); [|destruct (N.eqb_spec a 244)]; apply in_range_iff in B; lia. }
  exists (262144 * (a - 240) + 4096 * (b - 128) + 64 * (c - 128) + (d - 128))%N,
    [240 + (a - 240); 128 + (b - 128); 128 + (c - 128); 128 + (d - 128)]%N, t4.
  split; [cbn [app]; repeat f_equal; lia|]. split; [|auto]. constructor; try lia. unfold scalar. lia.
Qed.

Lemma utf8_nonempty : forall n b, utf8 n b -> (0 < List.length b)%nat.
Proof. intros n b U. destruct U; cbn; lia. Qed.

Lemma c64_text : forall l, utf8_valid l = true <-> exists ns, text_of ns l.
Proof.
  intros l. split.
  - remember (List.length l) as k eqn:E. revert l E. induction k as [k IH] using lt_wf_ind. intros l -> H.
    destruct l as [|a t]; [exists []; constructor|].
    destruct (utf8_first (a :: t)) as (n & b & t' & E & U & V); [discriminate|auto|]. pose proof (utf8_nonempty _ _ U).
    rewrite E in *. rewrite app_length in IH. destruct (IH (List.length t')) with (l := t') as (ns & T); [lia|auto|auto|].
    exists (n :: ns). constructor; auto.
  - intros (ns & T). induction T as [|n ns b t U T IH]; [reflexivity|]. rewrite (utf8_step _ _ _ U). auto.
Qed.

Lemma c64_chars : forall ns l, text_of ns l -> chars_count l = lenN ns.
Proof.
  intros ns l T. induction T as [|n ns b t U T IH]; [reflexivity|]. unfold chars_count in *. rewrite filter_app, lenN_app, IH, lenN_cons.
  assert (F : forall x, (x < 64)%N -> is_cont (128 + x) = true) by (intros; apply in_range_iff; lia).
  assert (G : forall x, (64 <= x)%N -> is_cont (128 + x) = false) by (intros; apply in_range_no; lia).
  assert (lenN (filter (fun b => negb (is_cont b)) b) = 1%N); [|lia].
  destruct U as [n L|x y X Y _|x y z X Y Z _ _|x y z w X Y Z W _ _]; cbn [filter].
  - replace (is_cont n) with false by (symmetry; apply in_range_no; lia). reflexivity.
  - replace (192 + x)%N with (128 + (64 + x))%N by lia. rewrite G, F by lia. reflexivity.
  - replace (224 + x)%N with (128 + (96 + x))%N by lia. rewrite G, !F by lia. reflexivity.
  - replace (240 + x)%N with (128 + (112 + x))%N by lia. rewrite G, !F by lia. reflexivity.
Qed.

(** The encoder of the model. *)
Lemma utf8_char_spec : forall n u, utf8 n u <-> scalar n /\ u = utf8_char n.
Proof.
  intros n u. split.
  - intros U. destruct U as [n L|x y X Y G|x y z X Y Z G S|x y z w X Y Z W G S]; unfold utf8_char.
    + rewrite (proj2 (N.ltb_lt n 128)) by auto. split; [unfold scalar; lia|reflexivity].
    + rewrite (proj2 (N.ltb_ge _ 128)), (proj2 (N.ltb_lt _ 2048)) by lia. split; [unfold scalar; lia|].
      repeat f_equal; lia.
    + rewrite (proj2 (N.ltb_ge _ 128)), (proj2 (N.ltb_ge _ 2048)), (proj2 (N.ltb_lt _ 65536)) by lia. split; [auto|].
      repeat f_equal; lia.
    + rewrite (proj2 (N.ltb_ge _ 128)), (proj2 (N.ltb_ge _ 2048)), (proj2 (N.ltb_ge _ 65536)) by lia. split; [auto|].
      repeat f_equal; lia.
  - intros [S ->]. unfold utf8_char.
    destruct (N.ltb_spec n 128) as [L1|L1]; [constructor; auto|].
    destruct (N.ltb_spec n 2048) as [L2|L2].
    { replace n with (64 * (n / 64) + n mod 64)%N at 1 by lia. constructor; lia. }
    destruct (N.ltb_spec n 65536) as [L3|L3].
    { replace n with (4096 * (n / 4096) + 64 * ((n / 64) mod 64) + n mod 64)%N at 1 by lia. constructor; try lia.
      replace (4096 * (n / 4096) + 64 * ((n / 64) mod 64) + n mod 64)%N with n by lia. auto. }
    unfold scalar in S.
    replace n with (262144 * (n / 262144) + 4096 * ((n / 4096) mod 64) + 64 * ((n / 64) mod 64) + n mod 64)%N at 1 by lia. constructor; try lia.
    replace (262144 * (n / 262144) + 4096 * ((n / 4096) mod 64) + 64 * ((n / 64) mod 64) + n mod 64)%N with n by lia. auto.
Qed.

(** ** Strings *)

Lemma is_digit_iff : forall b, is_digit b = true <-> digit b.
Proof. intros. unfold is_digit, digit. rewrite andb_true_iff, !N.leb_le. tauto. Qed.

Lemma hex_same : forall b, ModelCache.hex_value b = SpecTorrent.hex_value b.
Proof.
  intros b. unfold ModelCache.hex_value, SpecTorrent.hex_value, in_range, is_digit.
  destruct (N.leb_spec 48 b), (N.leb_spec b 57), (N.leb_spec 65 b), (N.leb_spec b 70), (N.leb_spec 97 b), (N.leb_spec b 102);
    cbn [andb]; try lia; try reflexivity; f_equal; lia.
Qed.
Lemma hex4_spec : forall a b c d n, hex4 a b c d = Some n <-> hex_four [a; b; c; d] n.
Proof.
  intros. unfold hex4, hex_four. rewrite !hex_same. split.
  - destruct (hex_value a) as [x|] eqn:A, (hex_value b) as [y|] eqn:B, (hex_value c) as [z|] eqn:C, (hex_value d) as [w|] eqn:D;
      try discriminate. intros E; inversion E; subst. exists a, b, c, d, x, y, z, w. repeat split; auto. lia.
  - intros (a' & b' & c' & d' & x & y & z & w & E & A & B & C & D & ->). inversion E; subst. rewrite A, B, C, D. f_equal. lia.
Qed.
Lemma hex_four_form : forall h n, hex_four h n -> exists a b c d, h = [a; b; c; d] /\ hex4 a b c d = Some n.
Proof.
  intros h n H. pose proof H as (a & b & c & d & x & y & z & w & E & _). exists a, b, c, d. split; auto. subst h. apply hex4_spec; auto.
Qed.
Lemma hex_four_at : forall h n a b c d t r, hex_four h n -> h ++ t = a :: b :: c :: d :: r -> hex4 a b c d = Some n /\ t = r.
Proof.
  intros h n a b c d t r H E. destruct (hex_four_form _ _ H) as (a' & b' & c' & d' & -> & F). cbn [app] in E. inversion E; subst. auto.
Qed.

Lemma escape_spec : forall e c, simple_escape e = Some c <-> In (e, c) escapes.
Proof.
  intros e c. unfold simple_escape, escapes. split.
  - intros H. repeat (match type of H with (if (e =? ?k)%N then _ else _) = _ => destruct (N.eqb_spec e k) as [->|] end;
      [inversion H; subst; cbn [In]; tauto|]). discriminate.
  - cbn [In]. intros H. repeat (destruct H as [H|H]; [inversion H; subst; reflexivity|]). destruct H.
Qed.

Lemma low_half_some : forall t m, low_half t = Some m ->
  exists g1 g2 g3 g4 r, t = 92%N :: 117%N :: g1 :: g2 :: g3 :: g4 :: r /\ hex4 g1 g2 g3 g4 = Some m /\ (56320 <= m <= 57343)%N.
Proof.
  intros [|b [|u [|g1 [|g2 [|g3 [|g4 r]]]]]] m H; try discriminate H. cbn [low_half] in H.
  destruct (N.eqb_spec b 92) as [->|]; [|discriminate H]. destruct (N.eqb_spec u 117) as [->|]; [|discriminate H]. cbn [andb] in H.
  destruct (hex4 g1 g2 g3 g4) as [k|] eqn:E; [|discriminate H]. unfold low_surrogate in H. destruct (in_range 56320 57343 k) eqn:R; [|discriminate H].
  inversion H; subst. apply in_range_iff in R. exists g1, g2, g3, g4, r. auto.
Qed.

Lemma hex_not_quote : forall a b c d n, hex4 a b c d = Some n -> a <> 34%N /\ b <> 34%N /\ c <> 34%N /\ d <> 34%N.
Proof.
  intros a b c d n H. unfold hex4 in H.
  assert (Q : ModelCache.hex_value 34 = None) by reflexivity.
  destruct (ModelCache.hex_value a) eqn:A; [|discriminate H]. destruct (ModelCache.hex_value b) eqn:B; [|discriminate H].
  destruct (ModelCache.hex_value c) eqn:C; [|discriminate H]. destruct (ModelCache.hex_value d) eqn:D; [|discriminate H].
  repeat split; congruence.
Qed.

(** A text that ends in a quote and begins with the second half of a pair. *)
Lemma low_half_inside : forall t m, low_half (t ++ [34%N]) = Some m -> string_source t ->
  exists g1 g2 g3 g4 r, t = 92%N :: 117%N :: g1 :: g2 :: g3 :: g4 :: r /\ hex4 g1 g2 g3 g4 = Some m /\ (56320 <= m <= 57343)%N /\ string_source r.
Proof.
  intros t m H S. destruct (low_half_some _ _ H) as (g1 & g2 & g3 & g4 & r & E & X & R). pose proof (hex_not_quote _ _ _ _ _ X) as (Q1 & Q2 & Q3 & Q4).
  destruct t as [|b1 [|b2 [|b3 [|b4 [|b5 [|b6 t]]]]]]; cbn [app] in E; inversion E; subst; try congruence.
  exists g1, g2, g3, g4, t. repeat split; auto; try lia.
  inversion S as [|? ? A1 A2 A3|e c ? I|h n t0 F S0 EH]; subst; try congruence.
  - apply escape_spec in I. discriminate I.
  - destruct (hex_four_at _ _ _ _ _ _ _ _ F EH) as [_ <-]. auto.
Qed.

Definition hs (n : N) : Prop := (55296 <= n <= 56319)%N.
Lemma low_half_read : forall f t s r x, js_read_string f t = Some (s, r) -> low_half (t ++ x) = low_half t.
Proof.
  intros. destruct (low_half t) eqn:E; [apply low_half_app; auto|eapply low_half_none; eauto].
Qed.

Lemma string_read : forall src, string_source src -> exists m,
  (forall f rest, (List.length src < f)%nat -> js_read_string f (src ++ 34%N :: rest) = Some (m, rest)) /\
  (forall s, m = Some s <-> meaning src s).
Proof.
  intros src. remember (List.length src) as k eqn:K. revert src K. induction k as [k IH] using lt_wf_ind. intros src -> S.
  inversion S as [E|b t B1 B2 B3 S' E|e c t I S' E|h n t F S' E]; subst src.
  - exists (Some []). split.
    + intros [|f] rest L; [cbn in L; lia|]. reflexivity.
    + intros s. split; intros H; [inversion H; constructor|inversion H; reflexivity].
  - destruct (IH (List.length t)) with (src := t) as (m & R & M); [cbn [List.length app]; lia|reflexivity|assumption|].
    exists (option_map (fun s => b :: s) m). split.
    + intros [|f] rest L; [cbn in L; lia|]. cbn [List.length] in L. cbn [app js_read_string].
      rewrite (proj2 (N.eqb_neq b 34)), (proj2 (N.eqb_neq b 92)), (proj2 (N.ltb_ge b 32)) by auto. rewrite R by lia.
      destruct m; reflexivity.
    + intros s. split.
      * destruct m as [u|]; intros H; inversion H; subst. constructor; auto. apply M; auto.
      * intros H. inversion H as [|? ? s' ? ? ? H'| | |]; subst; try congruence. apply M in H'. rewrite H'. reflexivity.
  - destruct (IH (List.length t)) with (src := t) as (m & R & M); [cbn [List.length app]; lia|reflexivity|assumption|].
    apply escape_spec in I. assert (NU : e <> 117%N) by (intros ->; discriminate I).
    exists (option_map (fun s => c :: s) m). split.
    + intros [|f] rest L; [cbn in L; lia|]. cbn [List.length] in L. cbn [app js_read_string].
      replace (92 =? 34)%N with false by reflexivity. replace (92 =? 92)%N with true by reflexivity.
      rewrite (proj2 (N.eqb_neq e 117)) by auto. rewrite I. rewrite R by lia. destruct m; reflexivity.
    + intros s. split.
      * destruct m as [u|]; intros H; inversion H; subst. constructor; [apply escape_spec; auto|]. apply M; auto.
      * intros H. inversion H as [| |? c' ? s' I' H'| |]; subst; try congruence. apply escape_spec in I'. rewrite I in I'. inversion I'; subst.
        apply M in H'. rewrite H'. reflexivity.
  - destruct (hex_four_form _ _ F) as (a & b & c & d & -> & X). cbn [app List.length].
    assert (RD : forall f rest, js_read_string (Datatypes.S f) (92%N :: 117%N :: a :: b :: c :: d :: t ++ 34%N :: rest) =
      if low_surrogate n then js_bad (js_read_string f (t ++ 34%N :: rest))
      else if high_surrogate n then
        match low_half (t ++ 34%N :: rest) with
        | Some m => js_cons (utf8_char (65536 + (n - 55296) * 1024 + (m - 56320))) (js_read_string f (skipn 6 (t ++ 34%N :: rest)))
        | None => js_bad (js_read_string f (t ++ 34%N :: rest))
        end
      else js_cons (utf8_char n) (js_read_string f (t ++ 34%N :: rest))).
    { intros. cbn [js_read_string]. replace (92 =? 34)%N with false by reflexivity. replace (92 =? 92)%N with true by reflexivity.
      replace (117 =? 117)%N with true by reflexivity. rewrite X. reflexivity. }
    destruct (IH (List.length t)) with (src := t) as (m & R & M); [cbn [List.length app]; lia|reflexivity|assumption|].
    (* what can be meant *)
    assert (MI : forall s, meaning (92%N :: 117%N :: a :: b :: c :: d :: t) s ->
      (exists u s', utf8 n u /\ meaning t s' /\ s = u ++ s') \/
      (hs n /\ exists g y u t' s', t = 92%N :: 117%N :: g ++ t' /\ hex_four g (56320 + y) /\ (y < 1024)%N /\
        utf8 (65536 + 1024 * (n - 55296) + y) u /\ meaning t' s' /\ s = u ++ s')).
    { intros s H. inversion H as [| |? ? ? ? I|h n' u t' s' F' U H' E|h g x y u t' s' F1 X1 F2 Y U H' E]; subst; try congruence.
      - apply escape_spec in I. discriminate I.
      - destruct (hex_four_at _ _ _ _ _ _ _ _ F' E) as [E1 ->]. rewrite X in E1. inversion E1; subst. left. eauto.
      - destruct (hex_four_at _ _ _ _ _ _ _ _ F1 E) as [E1 <-]. assert (NE : n = (55296 + x)%N) by congruence. right. split; [unfold hs; lia|].
        exists g, y, u, t', s'. repeat (split; auto). replace (n - 55296)%N with x by lia. auto. }
    unfold low_surrogate in RD. destruct (in_range 56320 57343 n) eqn:LO.
    { apply in_range_iff in LO. exists None. split.
      - intros [|f] rest L; [lia|]. rewrite RD, R by lia. reflexivity.
      - intros s. split; [discriminate|]. intros H. destruct (MI _ H) as [(u & s' & U & _)|(Q & _)]; [|unfold hs in Q; lia].
        apply utf8_char_spec in U as [[U1 U2] _]. lia. }
    apply in_range_no in LO. unfold high_surrogate in RD. destruct (in_range 55296 56319 n) eqn:HI.
    + apply in_range_iff in HI.
      assert (LH : forall rest, low_half (t ++ 34%N :: rest) = low_half (t ++ [34%N])).
      { intros rest. replace (t ++ 34%N :: rest) with ((t ++ [34%N]) ++ rest) by (rewrite <- app_assoc; reflexivity).
        eapply low_half_read. apply (R (Datatypes.S (List.length t)) []). lia. }
      destruct (low_half (t ++ [34%N])) as [m2|] eqn:L2.
      * destruct (low_half_inside _ _ L2 S') as (g1 & g2 & g3 & g4 & t' & -> & X2 & R2 & S2).
        destruct (IH (List.length t')) with (src := t') as (m' & R' & M'); [cbn [List.length app]; lia|reflexivity|assumption|].
        destruct (ex_intro (fun z => z = (65536 + (n - 55296) * 1024 + (m2 - 56320))%N) _ eq_refl) as (z & ZE).
        exists (option_map (fun s => utf8_char z ++ s) m'). split.
        -- intros [|f] rest L; [lia|]. rewrite RD, LH. rewrite <- ZE. cbn [app skipn]. cbn [List.length] in L. rewrite R' by lia. destruct m'; reflexivity.
        -- intros s. split.
           ++ destruct m' as [s'|]; intros H; [|discriminate H]. injection H as <-.
              replace (92 :: 117 :: a :: b :: c :: d :: 92 :: 117 :: g1 :: g2 :: g3 :: g4 :: t')%N
                with (92 :: 117 :: [a; b; c; d] ++ 92 :: 117 :: [g1; g2; g3; g4] ++ t')%N by reflexivity.
              apply me_pair with (x := (n - 55296)%N) (y := (m2 - 56320)%N).
              ** replace (55296 + (n - 55296))%N with n by lia. auto.
              ** lia.
              ** apply hex4_spec. rewrite X2. f_equal. lia.
              ** lia.
              ** apply utf8_char_spec. replace (65536 + 1024 * (n - 55296) + (m2 - 56320))%N with z by lia. split; [unfold scalar; lia|reflexivity].
              ** apply M'; auto.
           ++ intros H. destruct (MI _ H) as [(u & s' & U & _)|(_ & g & y & u & t0 & s' & E & F2 & Y & U & H' & ->)].
              { apply utf8_char_spec in U as [[U1 U2] _]. lia. }
              inversion E as [E']. symmetry in E'. destruct (hex_four_at _ _ _ _ _ _ _ _ F2 E') as [E1 ->]. assert (ME : m2 = (56320 + y)%N) by congruence.
              apply M' in H'. rewrite H'. cbn [option_map]. replace (65536 + 1024 * (n - 55296) + y)%N with z in U by lia. apply utf8_char_spec in U as [_ ->]. reflexivity.
      * exists None. split.
        -- intros [|f] rest L; [lia|]. rewrite RD, LH, R by lia. reflexivity.
        -- intros s. split; [discriminate|]. intros H. destruct (MI _ H) as [(u & s' & U & _)|(_ & g & y & u & t0 & s' & E & F2 & Y & U & H' & ->)].
           { apply utf8_char_spec in U as [[U1 U2] _]. lia. }
           exfalso. destruct (hex_four_form _ _ F2) as (g1 & g2 & g3 & g4 & -> & X2). subst t. cbn [app low_half] in L2.
           replace (92 =? 92)%N with true in L2 by reflexivity. replace (117 =? 117)%N with true in L2 by reflexivity. cbn [andb] in L2.
           rewrite X2 in L2. unfold low_surrogate in L2. rewrite (proj2 (in_range_iff 56320 57343 (56320 + y))) in L2 by lia. discriminate L2.
    + apply in_range_no in HI. pose proof (hex4_spec a b c d n) as [_ _].
      assert (NB : (n < 65536)%N).
      { unfold hex4 in X. destruct (ModelCache.hex_value a) as [x1|] eqn:H1, (ModelCache.hex_value b) as [x2|] eqn:H2,
          (ModelCache.hex_value c) as [x3|] eqn:H3, (ModelCache.hex_value d) as [x4|] eqn:H4; try discriminate X.
        assert (B : forall v x, ModelCache.hex_value v = Some x -> (x < 16)%N).
        { intros v x. unfold ModelCache.hex_value. destruct (is_digit v) eqn:D1.
          { apply is_digit_iff in D1. unfold digit in D1. intros E; inversion E; lia. }
          destruct (in_range 65 70 v) eqn:D2; [apply in_range_iff in D2; intros E; inversion E; lia|].
          destruct (in_range 97 102 v) eqn:D3; [apply in_range_iff in D3; intros E; inversion E; lia|discriminate]. }
        apply B in H1, H2, H3, H4. inversion X. lia. }
      exists (option_map (fun s => utf8_char n ++ s) m). split.
      * intros [|f] rest L; [lia|]. rewrite RD, R by lia. destruct m; reflexivity.
      * intros s. split.
        -- destruct m as [s'|]; intros H; [|discriminate H]. injection H as <-.
           replace (92 :: 117 :: a :: b :: c :: d :: t)%N with (92 :: 117 :: [a; b; c; d] ++ t)%N by reflexivity.
           apply me_unicode with (n := n); auto. { apply utf8_char_spec. split; [unfold scalar; lia|reflexivity]. } apply M; auto.
        -- intros H. destruct (MI _ H) as [(u & s' & U & H' & ->)|(Q & _)]; [|unfold hs in Q; lia].
           apply utf8_char_spec in U as [_ ->]. apply M in H'. rewrite H'. reflexivity.
Qed.

Lemma string_sound : forall f t m rest, js_read_string f t = Some (m, rest) -> exists src, string_source src /\ t = src ++ 34%N :: rest.
Proof.
  induction f as [|f IH]; [discriminate|]. intros t m rest H. cbn [js_read_string] in H. destruct t as [|b t1]; [discriminate|].
  destruct (N.eqb_spec b 34) as [->|B1]. { inversion H; subst. exists []. split; [constructor|reflexivity]. }
  destruct (N.eqb_spec b 92) as [->|B2].
  - destruct t1 as [|e t2]; [discriminate|]. destruct (N.eqb_spec e 117) as [->|U].
    + destruct t2 as [|h1 [|h2 [|h3 [|h4 t6]]]]; try discriminate. destruct (hex4 h1 h2 h3 h4) as [n|] eqn:X; [|discriminate].
      assert (K : forall m', js_read_string f t6 = Some (m', rest) ->
        exists src, string_source src /\ (92 :: 117 :: h1 :: h2 :: h3 :: h4 :: t6 = src ++ 34 :: rest)%N).
      { intros m' R. destruct (IH _ _ _ R) as (src & S & ->). exists (92%N :: 117%N :: [h1; h2; h3; h4] ++ src). split; [|reflexivity].
        apply ss_unicode with (n := n); auto. apply hex4_spec; auto. }
      destruct (low_surrogate n). { apply js_bad_some in H as (_ & m' & R). eauto. }
      destruct (high_surrogate n).
      * destruct (low_half t6) as [m2|] eqn:L.
        -- destruct (low_half_some _ _ L) as (g1 & g2 & g3 & g4 & r & -> & X2 & _). cbn [skipn] in H.
           apply js_cons_some in H as (m' & R & _).
           destruct (IH _ _ _ R) as (src & S & ->).
           exists (92%N :: 117%N :: [h1; h2; h3; h4] ++ 92%N :: 117%N :: [g1; g2; g3; g4] ++ src). split; [|reflexivity].
           apply ss_unicode with (n := n); [apply hex4_spec; auto|]. apply ss_unicode with (n := m2); auto. apply hex4_spec; auto.
        -- apply js_bad_some in H as (_ & m' & R). eauto.
      * apply js_cons_some in H as (m' & R & _). eauto.
    + destruct (simple_escape e) as [c|] eqn:E; [|discriminate]. apply js_cons_some in H as (m' & R & _). destruct (IH _ _ _ R) as (src & S & ->).
      exists (92%N :: e :: src). split; [|reflexivity]. apply ss_escape with (c := c); auto. apply escape_spec; auto.
  - destruct (N.ltb_spec b 32); [discriminate|]. apply js_cons_some in H as (m' & R & _). destruct (IH _ _ _ R) as (src & S & ->).
    exists (b :: src). split; [|reflexivity]. constructor; auto.
Qed.

(** What a string means, as a function. *)
Definition strm (src : bytes) : option bytes := match js_str (src ++ [34%N]) with Some (m, []) => m | _ => None end.
Lemma strm_read : forall src rest, string_source src -> js_str (src ++ 34%N :: rest) = Some (strm src, rest).
Proof.
  intros src rest S. destruct (string_read _ S) as (m & R & _). unfold strm, js_str. rewrite R by (rewrite app_length; cbn; lia).
  rewrite R by (rewrite app_length; cbn; lia). reflexivity.
Qed.
Lemma meaning_source : forall src s, meaning src s -> string_source src.
Proof.
  intros src s H. induction H; [constructor|constructor; auto|eapply ss_escape; eauto|eapply ss_unicode; eauto|].
  eapply ss_unicode; [eauto|]. eapply ss_unicode; eauto.
Qed.
Lemma strm_meaning : forall src s, strm src = Some s <-> meaning src s.
Proof.
  intros src s. split.
  - unfold strm. destruct (js_str (src ++ [34%N])) as [[m [|]]|] eqn:E; try discriminate. intros ->.
    destruct (string_sound _ _ _ _ E) as (src' & S & E'). apply app_inj_tail in E' as [<- _].
    destruct (string_read _ S) as (m' & R & M). unfold js_str in E. rewrite R in E by (rewrite app_length; cbn; lia). apply M. congruence.
  - intros H. pose proof (meaning_source _ _ H) as S. destruct (string_read _ S) as (m & R & M). unfold strm, js_str.
    rewrite R by (rewrite app_length; cbn; lia). apply M. auto.
Qed.

(** ** Numbers *)

Definition nodigit (r : bytes) : Prop := match r with [] => True | c :: _ => is_digit c = false end.
Definition head_not (x : N) (r : bytes) : Prop := match r with [] => True | c :: _ => c <> x end.
Definition follow (r : bytes) : Prop := nodigit r /\ head_not 46 r /\ head_not 101 r /\ head_not 69 r.

Lemma digits_of_read : forall d r, Forall digit d -> nodigit r -> digits_of (d ++ r) = (d, r).
Proof.
  induction d as [|x d IH]; intros r F R; cbn [app].
  - destruct r as [|c r]; [reflexivity|]. cbn [digits_of]. cbn in R. now rewrite R.
  - cbn [digits_of]. rewrite (proj1 (digit_is_digit x)) by exact (Forall_inv F). now rewrite (IH r (Forall_inv_tail F) R).
Qed.
Lemma digits_of_inv : forall t d r, digits_of t = (d, r) -> t = d ++ r /\ Forall digit d /\ nodigit r.
Proof.
  induction t as [|b t IH]; intros d r H; cbn [digits_of] in H.
  - inversion H; subst. repeat split; auto.
  - destruct (is_digit b) eqn:B.
    + destruct (digits_of t) as [d' r'] eqn:E. inversion H; subst. destruct (IH _ _ eq_refl) as (-> & F & N0). repeat split; auto.
      constructor; auto. apply digit_is_digit; auto.
    + inversion H; subst. repeat split; auto.
Qed.
Lemma some_digits_read : forall d r, digits d -> nodigit r -> some_digits (d ++ r) = Some r.
Proof.
  intros d r [F NE] R. unfold some_digits. rewrite digits_of_read by auto. destruct d; [congruence|reflexivity].
Qed.
Lemma some_digits_inv : forall t r, some_digits t = Some r -> exists d, digits d /\ t = d ++ r /\ nodigit r.
Proof.
  intros t r H. unfold some_digits in H. destruct (digits_of t) as [d r'] eqn:E. destruct (digits_of_inv _ _ _ E) as (-> & F & R).
  destruct d as [|x d]; [discriminate|]. inversion H; subst. exists (x :: d). repeat split; auto. discriminate.
Qed.
Lemma integer_read : forall i r, int_part i -> nodigit r -> js_integer (i ++ r) = Some (digits_value i, r).
Proof.
  intros i r [[F NE] Z] R. unfold js_integer. rewrite digits_of_read by auto. destruct i as [|d [|d2 ds]]; [congruence|reflexivity|].
  rewrite (proj2 (N.eqb_neq d 48)); [reflexivity|]. intros ->. specialize (Z _ eq_refl). discriminate.
Qed.
Lemma integer_inv : forall t n r, js_integer t = Some (n, r) -> exists i, int_part i /\ t = i ++ r /\ n = digits_value i /\ nodigit r.
Proof.
  intros t n r H. unfold js_integer in H. destruct (digits_of t) as [d r'] eqn:E. destruct (digits_of_inv _ _ _ E) as (-> & F & R).
  destruct d as [|x [|y ds]]; [discriminate| |].
  - assert (r' = r /\ n = digits_value [x]) as [-> ->] by (split; congruence). exists [x]. repeat split; auto; [discriminate|]. intros t E'. inversion E'; auto.
  - destruct (N.eqb_spec x 48) as [->|NX]; [discriminate|]. assert (r' = r /\ n = digits_value (x :: y :: ds)) as [-> ->] by (split; congruence).
    exists (x :: y :: ds). repeat split; auto; [discriminate|]. intros t E'. inversion E'; congruence.
Qed.
Definition filled (s : bytes) : bool := match s with [] => false | _ => true end.
Lemma fraction_read : forall f r, frac_part f -> nodigit r -> head_not 46 r -> js_fraction (f ++ r) = Some (filled f, r).
Proof.
  intros f r [->|(d & D & ->)] R H; cbn [app js_fraction filled].
  - destruct r as [|c r]; [reflexivity|]. cbn [js_fraction]. cbn in H. rewrite (proj2 (N.eqb_neq c 46)) by auto. reflexivity.
  - rewrite some_digits_read by auto. reflexivity.
Qed.
Lemma fraction_inv : forall t b r, js_fraction t = Some (b, r) -> exists f, frac_part f /\ t = f ++ r /\ b = filled f.
Proof.
  intros [|c t] b r H; cbn [js_fraction] in H.
  - inversion H; subst. exists []. repeat split; auto. left; auto.
  - destruct (N.eqb_spec c 46) as [->|NC].
    + destruct (some_digits t) as [r'|] eqn:E; [|discriminate]. inversion H; subst. destruct (some_digits_inv _ _ E) as (d & D & -> & _).
      exists (46%N :: d). repeat split; auto. right; eauto.
    + inversion H; subst. exists []. repeat split; auto. left; auto.
Qed.
Lemma sign_read : forall sg d r, In sg [[]; [43]; [45]]%N -> digits d -> js_sign (sg ++ d ++ r) = d ++ r.
Proof.
  intros sg d r [<-|[<-|[<-|[]]]] [F NE]; try reflexivity. destruct d as [|x d]; [congruence|]. cbn [app js_sign].
  pose proof (Forall_inv F) as X. unfold digit in X. rewrite !(proj2 (N.eqb_neq x _)) by lia. reflexivity.
Qed.
Lemma sign_inv : forall t, exists sg, In sg [[]; [43]; [45]]%N /\ t = sg ++ js_sign t.
Proof.
  intros [|b t]; cbn [js_sign]; [exists []; cbn; auto|]. destruct (N.eqb_spec b 43) as [->|]; [exists [43%N]; cbn; auto|].
  destruct (N.eqb_spec b 45) as [->|]; cbn [orb]; [exists [45%N]; cbn; auto|exists []; cbn; auto].
Qed.
Lemma exponent_read : forall e r, exp_part e -> nodigit r -> head_not 101 r -> head_not 69 r -> js_exponent (e ++ r) = Some (filled e, r).
Proof.
  intros e r [->|(c & sg & d & C & G & D & ->)] R H1 H2.
  - destruct r as [|x r]; [reflexivity|]. cbn [app js_exponent filled]. cbn in H1, H2. rewrite !(proj2 (N.eqb_neq x _)) by auto. reflexivity.
  - cbn [app js_exponent filled]. rewrite <- app_assoc.
    replace ((c =? 101)%N || (c =? 69)%N)%bool with true by (destruct C as [<-|[<-|[]]]; reflexivity).
    rewrite sign_read by auto. rewrite some_digits_read by auto. reflexivity.
Qed.
Lemma exponent_inv : forall t b r, js_exponent t = Some (b, r) -> exists e, exp_part e /\ t = e ++ r /\ b = filled e.
Proof.
  intros [|c t] b r H; cbn [js_exponent] in H.
  - inversion H; subst. exists []. repeat split; auto. left; auto.
  - destruct ((c =? 101)%N || (c =? 69)%N)%bool eqn:C.
    + destruct (some_digits (js_sign t)) as [r'|] eqn:E; [|discriminate]. inversion H; subst. destruct (some_digits_inv _ _ E) as (d & D & E2 & _).
      destruct (sign_inv t) as (sg & G & E3). exists (c :: sg ++ d). repeat split.
      * right. exists c, sg, d. repeat split; auto; try apply D. apply orb_true_iff in C as [C|C]; apply N.eqb_eq in C; subst; cbn; auto.
      * cbn [app]. f_equal. rewrite <- app_assoc, <- E2. auto.
    + inversion H; subst. exists []. repeat split; auto. left; auto.
Qed.

Definition numval (neg : bool) (i f e : bytes) : option N :=
  if neg || filled f || filled e then None else if (digits_value i <? two64)%N then Some (digits_value i) else None.
Lemma unsigned_read : forall neg i f e r, int_part i -> frac_part f -> exp_part e -> follow r ->
  js_unsigned neg (i ++ f ++ e ++ r) = Some (JNum (numval neg i f e), r).
Proof.
  intros neg i f e r I F E (R1 & R2 & R3 & R4). unfold js_unsigned.
  assert (ER : nodigit (e ++ r) /\ head_not 46 (e ++ r)).
  { destruct E as [->|(c & sg & d & C & _ & _ & ->)]; [auto|]. cbn [app nodigit head_not]. destruct C as [<-|[<-|[]]]; split; [reflexivity|discriminate|reflexivity|discriminate]. }
  assert (FR : nodigit (f ++ e ++ r)). { destruct F as [->|(d & _ & ->)]; [apply ER|reflexivity]. }
  rewrite integer_read by auto. rewrite fraction_read by (auto; apply ER). rewrite exponent_read by auto. reflexivity.
Qed.
Lemma unsigned_inv : forall neg t j r, js_unsigned neg t = Some (j, r) ->
  exists i f e, int_part i /\ frac_part f /\ exp_part e /\ t = i ++ f ++ e ++ r /\ j = JNum (numval neg i f e).
Proof.
  intros neg t j r H. unfold js_unsigned in H. destruct (js_integer t) as [[n r0]|] eqn:E0; [|discriminate].
  destruct (js_fraction r0) as [[fr r1]|] eqn:E1; [|discriminate]. destruct (js_exponent r1) as [[ex r2]|] eqn:E2; [|discriminate].
  destruct (integer_inv _ _ _ E0) as (i & I & -> & -> & _). destruct (fraction_inv _ _ _ E1) as (f & F & -> & ->).
  destruct (exponent_inv _ _ _ E2) as (e & E & -> & ->). exists i, f, e. assert (r2 = r) by congruence. subst r2. repeat (split; auto).
  unfold numval. congruence.
Qed.

(** What a number means, as a function. *)
Definition numv (s : bytes) : option N := match js_number s with Some (JNum n, []) => n | _ => None end.
Lemma number_read' : forall m i f e r, In m [[]; [45]]%N -> int_part i -> frac_part f -> exp_part e -> follow r ->
  js_number (m ++ i ++ f ++ e ++ r) = Some (JNum (numval (filled m) i f e), r).
Proof.
  intros m i f e r M I F E R. destruct M as [<-|[<-|[]]].
  - cbn [app filled]. pose proof (unsigned_read false i f e r I F E R) as U. destruct I as [[D NE] _]. destruct i as [|x i]; [congruence|].
    cbn [app js_number]. pose proof (Forall_inv D) as X. unfold digit in X. rewrite (proj2 (N.eqb_neq x 45)) by lia. auto.
  - cbn [app filled js_number]. apply (unsigned_read true i f e r I F E R).
Qed.
Lemma follow_nil : follow [].
Proof. repeat split. Qed.
Lemma numv_parts : forall m i f e, In m [[]; [45]]%N -> int_part i -> frac_part f -> exp_part e ->
  numv (m ++ i ++ f ++ e) = numval (filled m) i f e.
Proof.
  intros m i f e M I F E. unfold numv. pose proof (number_read' m i f e [] M I F E follow_nil) as R. rewrite app_nil_r in R. rewrite R. reflexivity.
Qed.
Lemma number_read : forall s r, number s -> follow r -> js_number (s ++ r) = Some (JNum (numv s), r).
Proof.
  intros s r (m & i & f & e & M & I & F & E & ->) R. rewrite numv_parts by auto. rewrite <- !app_assoc. apply number_read'; auto.
Qed.
Lemma number_sound : forall t j r, js_number t = Some (j, r) -> exists s, number s /\ t = s ++ r /\ j = JNum (numv s).
Proof.
  intros t j r H.
  assert (K : exists m i f e, In m [[]; [45]]%N /\ int_part i /\ frac_part f /\ exp_part e /\ t = m ++ i ++ f ++ e ++ r /\ j = JNum (numval (filled m) i f e)).
  { destruct t as [|b t]; [discriminate|]. cbn [js_number] in H. destruct (N.eqb_spec b 45) as [->|].
    - destruct (unsigned_inv _ _ _ _ H) as (i & f & e & I & F & E & -> & ->). exists [45%N], i, f, e. repeat (split; auto). right; left; auto.
    - destruct (unsigned_inv _ _ _ _ H) as (i & f & e & I & F & E & T & ->). exists [], i, f, e. repeat (split; auto). left; auto. }
  destruct K as (m & i & f & e & M & I & F & E & -> & ->). exists (m ++ i ++ f ++ e). split; [exists m, i, f, e; auto 6|]. split.
  - rewrite <- !app_assoc. reflexivity.
  - rewrite numv_parts; auto.
Qed.
Lemma decimal_int : forall n, int_part (decimal n).
Proof. intros n. destruct (decimal_canon n) as [(F & NE & Z) _]. repeat split; auto. Qed.
Lemma numv_decimal : forall n, (n < 2 ^ 64)%N -> numv (decimal n) = Some n.
Proof.
  intros n L. pose proof (numv_parts [] (decimal n) [] [] (or_introl eq_refl) (decimal_int n) (or_introl eq_refl) (or_introl eq_refl)) as P.
  cbn [app] in P. rewrite app_nil_r in P. rewrite P. unfold numval. cbn [filled orb]. rewrite digits_value_numeral, (proj2 (decimal_canon n)).
  rewrite (proj2 (N.ltb_lt n two64)); [reflexivity|]. exact L.
Qed.
Lemma numv_spec : forall s n, numv s = Some n <-> s = decimal n /\ (n < 2 ^ 64)%N.
Proof.
  intros s n. split; [|intros [-> L]; apply numv_decimal; auto]. intros H. pose proof H as H0. unfold numv in H.
  destruct (js_number s) as [[j [|]]|] eqn:E; [|destruct j; discriminate H|discriminate H].
  destruct (number_sound _ _ _ E) as (s' & (m & i & f & e & M & I & F & X & ->) & -> & ->). rewrite app_nil_r in *.
  rewrite numv_parts in H0 by auto. unfold numval in H0. destruct (filled m) eqn:Fm; [discriminate|]. destruct (filled f) eqn:Ff; [discriminate|].
  destruct (filled e) eqn:Fe; [discriminate|]. destruct m; [|discriminate]. destruct f; [|discriminate]. destruct e; [|discriminate].
  cbn [orb] in H0. destruct (N.ltb_spec (digits_value i) two64) as [L|]; [|discriminate]. cbn [app]. rewrite app_nil_r.
  assert (V : digits_value i = n) by congruence. rewrite V in L. split; [|exact L].
  apply canon_inj; [|apply decimal_canon|rewrite <- digits_value_numeral, V, (proj2 (decimal_canon n)); reflexivity].
  destruct I as [[D NE] Z]. repeat split; auto.
Qed.

(** ** Values *)

Fixpoint abs (v : value) : json :=
  match v with
  | VNull => JNull
  | VBool b => JBool b
  | VNumber s => JNum (numv s)
  | VString s => JStr (strm s)
  | VArray l => JArr (map abs l)
  | VObject l => JObj (map (fun e => (strm (fst e), abs (snd e))) l)
  end.
Definition abs_member (e : bytes * value) : option bytes * json := (strm (fst e), abs (snd e)).

Lemma js_ws_iff : forall b, js_ws b = true <-> In b [32; 10; 9; 13]%N.
Proof.
  intros b. unfold js_ws. rewrite !orb_true_iff, !N.eqb_eq. cbn [In]. intuition.
Qed.
Lemma skip_spaces : forall w t, spaces w -> skip_ws (w ++ t) = skip_ws t.
Proof.
  intros w t F. induction F as [|b w B F IH]; [reflexivity|]. cbn [app skip_ws]. rewrite (proj2 (js_ws_iff b)) by auto. auto.
Qed.
Lemma skip_inv : forall t, exists w, spaces w /\ t = w ++ skip_ws t.
Proof.
  induction t as [|b t (w & F & E)]; [exists []; split; [constructor|reflexivity]|]. cbn [skip_ws]. destruct (js_ws b) eqn:B.
  - exists (b :: w). split; [constructor; auto; apply js_ws_iff; auto|]. cbn [app]. f_equal. auto.
  - exists []. split; [constructor|reflexivity].
Qed.
Lemma skip_head : forall t b r, skip_ws t = b :: r -> js_ws b = false.
Proof.
  induction t as [|x t IH]; intros b r H; [discriminate|]. cbn [skip_ws] in H. destruct (js_ws x) eqn:X; [eauto|]. inversion H; subst; auto.
Qed.
Lemma next_read : forall w b r, spaces w -> js_ws b = false -> js_next (w ++ b :: r) = Some (b, r).
Proof. intros. unfold js_next. rewrite skip_spaces by auto. cbn [skip_ws]. rewrite H0. reflexivity. Qed.
Lemma next_inv : forall t b r, js_next t = Some (b, r) -> exists w, spaces w /\ t = w ++ b :: r /\ js_ws b = false.
Proof.
  intros t b r H. unfold js_next in H. destruct (skip_ws t) as [|x y] eqn:E; [discriminate|]. inversion H; subst.
  destruct (skip_inv t) as (w & F & E'). exists w. rewrite E in E'. repeat split; auto. eapply skip_head; eauto.
Qed.

(** How a value begins. *)
Definition opens (b : N) : Prop := In b [34; 91; 123; 110; 116; 102; 45]%N \/ digit b.
Lemma opens_not : forall b, opens b -> js_ws b = false /\ b <> 93%N /\ b <> 125%N.
Proof.
  intros b [H|H].
  - cbn [In] in H. repeat (destruct H as [<-|H]; [repeat split; discriminate|]). destruct H.
  - unfold digit in H. repeat split; try lia. unfold js_ws. rewrite !(proj2 (N.eqb_neq b _)) by lia. reflexivity.
Qed.
Lemma number_head : forall s, number s -> exists b t, s = b :: t /\ (b = 45%N \/ digit b).
Proof.
  intros s (m & i & f & e & M & I & F & E & ->). destruct M as [<-|[<-|[]]]; cbn [app]; [|eauto].
  destruct I as [[D NE] _]. destruct i as [|x i]; [congruence|]. exists x, (i ++ f ++ e). split; [reflexivity|]. right. exact (Forall_inv D).
Qed.
Lemma value_head : forall t v, json_text t v -> exists b r, t = b :: r /\ opens b.
Proof.
  intros t v J. destruct J as [| | |s N0|s S|w W|t l E|w W|t l M]; try (eexists _, _; split; [reflexivity|]; left; cbn; tauto).
  destruct (number_head _ N0) as (b & r & -> & D). exists b, r. split; [reflexivity|]. destruct D as [->|D]; [left; cbn; tauto|right; auto].
Qed.

Lemma strip_read : forall p r, strip p (p ++ r) = Some r.
Proof. induction p as [|x p IH]; intros r; cbn [app strip]; [destruct r; reflexivity|]. rewrite N.eqb_refl. auto. Qed.
Lemma strip_inv : forall p t r, strip p t = Some r -> t = p ++ r.
Proof.
  induction p as [|x p IH]; intros t r H; cbn [strip] in H; [cbn [app]; destruct t; congruence|]. destruct t as [|b t]; [discriminate|].
  destruct (N.eqb_spec x b) as [->|]; [|discriminate]. cbn [app]. f_equal. auto.
Qed.

Scheme json_text_ind2 := Minimality for json_text Sort Prop
  with elements_ind2 := Minimality for elements Sort Prop
  with members_ind2 := Minimality for members Sort Prop.
Combined Scheme json_mut from json_text_ind2, elements_ind2, members_ind2.

Definition after (v : value) (r : bytes) : Prop := match v with VNumber _ => follow r | _ => True end.
Lemma follow_byte : forall b r, js_ws b = true \/ b = 44%N \/ b = 93%N \/ b = 125%N -> follow (b :: r).
Proof.
  intros b r H. assert (E : In b [32; 10; 9; 13; 44; 93; 125]%N).
  { destruct H as [H|H]; [apply js_ws_iff in H; cbn [In] in *; tauto|cbn [In]; intuition]. }
  cbn [In] in E. repeat (destruct E as [<-|E]; [repeat split; discriminate|]). destruct E.
Qed.
Lemma follow_spaces : forall w b r, spaces w -> b = 44%N \/ b = 93%N \/ b = 125%N -> follow (w ++ b :: r).
Proof.
  intros [|x w] b r W B; cbn [app]; apply follow_byte; [right; auto|]. left. apply js_ws_iff. exact (Forall_inv W).
Qed.
Lemma after_follow : forall v r, follow r -> after v r.
Proof. intros [] r F; cbn; auto. Qed.

Lemma value_read :
  (forall t v, json_text t v -> forall w f r, spaces w -> after v r -> (2 * List.length t <= f)%nat -> js_value f (w ++ t ++ r) = Some (abs v, r)) /\
  (forall t l, elements t l -> forall f r, (2 * List.length t < f)%nat -> js_elements f (t ++ 93%N :: r) = Some (map abs l, r)) /\
  (forall t l, members t l -> forall f r, (2 * List.length t < f)%nat -> js_members f (t ++ 125%N :: r) = Some (map abs_member l, r)).
Proof.
  apply json_mut.
  - intros w [|f] r W _ L; [cbn in L; lia|]. cbn [js_value]. change (s2b "null" ++ r) with (110%N :: s2b "ull" ++ r). rewrite next_read by auto. cbn [N.eqb Pos.eqb]. rewrite strip_read. reflexivity.
  - intros w [|f] r W _ L; [cbn in L; lia|]. cbn [js_value]. change (s2b "true" ++ r) with (116%N :: s2b "rue" ++ r). rewrite next_read by auto. cbn [N.eqb Pos.eqb]. rewrite strip_read. reflexivity.
  - intros w [|f] r W _ L; [cbn in L; lia|]. cbn [js_value]. change (s2b "false" ++ r) with (102%N :: s2b "alse" ++ r). rewrite next_read by auto. cbn [N.eqb Pos.eqb]. rewrite strip_read. reflexivity.
  - intros s N0 w f r W A L. pose proof (number_read s r N0 A) as R. destruct (number_head _ N0) as (b & t & -> & B).
    destruct f as [|f]; [cbn in L; lia|]. cbn [js_value app]. rewrite next_read; [|auto|apply opens_not; destruct B as [->|]; [left; cbn; tauto|right; auto]].
    unfold digit in B. rewrite !(proj2 (N.eqb_neq b _)) by lia. exact R.
  - intros s S w [|f] r W _ L; [cbn in L; lia|]. cbn [js_value app]. rewrite next_read by auto. cbn [N.eqb Pos.eqb]. rewrite <- app_assoc. cbn [app].
    rewrite strm_read by auto. reflexivity.
  - intros u U w [|f] r W _ L; [cbn in L; lia|]. cbn [js_value app]. rewrite next_read by auto. cbn [N.eqb Pos.eqb]. rewrite <- app_assoc. cbn [app].
    rewrite next_read by auto. reflexivity.
  - intros t l E IH w [|f] r W _ L; [cbn in L; lia|]. cbn [js_value app]. rewrite next_read by auto. cbn [N.eqb Pos.eqb]. rewrite <- app_assoc. cbn [app].
    cbn [List.length] in L. rewrite app_length in L. cbn [List.length] in L. rewrite IH by lia.
    assert (H : exists w1 b x, t = w1 ++ b :: x /\ spaces w1 /\ opens b).
    { inversion E as [w1 u w2 v S1 J S2|w1 u w2 v q l' S1 J S2 E']; subst; destruct (value_head _ _ J) as (b & x & -> & O); cbn [app]; eauto 6. }
    destruct H as (w1 & b & x & -> & S1 & O). apply opens_not in O as (O1 & O2 & _). rewrite <- app_assoc. cbn [app]. rewrite next_read by auto.
    rewrite (proj2 (N.eqb_neq b 93)) by auto. reflexivity.
  - intros u U w [|f] r W _ L; [cbn in L; lia|]. cbn [js_value app]. rewrite next_read by auto. cbn [N.eqb Pos.eqb]. rewrite <- app_assoc. cbn [app].
    rewrite next_read by auto. reflexivity.
  - intros t l M IH w [|f] r W _ L; [cbn in L; lia|]. cbn [js_value app]. rewrite next_read by auto. cbn [N.eqb Pos.eqb]. rewrite <- app_assoc. cbn [app].
    cbn [List.length] in L. rewrite app_length in L. cbn [List.length] in L. rewrite IH by lia.
    assert (H : exists w1 x, t = w1 ++ 34%N :: x /\ spaces w1).
    { inversion M; subst; eauto. }
    destruct H as (w1 & x & -> & S1). rewrite <- app_assoc. cbn [app]. rewrite next_read by auto. reflexivity.
  - intros w1 t w2 v S1 J IH S2 f r L. destruct f as [|f]; [lia|]. cbn [js_elements]. rewrite !app_length in L. rewrite <- !app_assoc.
    rewrite IH; [|auto|apply after_follow, follow_spaces; auto|lia]. rewrite next_read by auto. reflexivity.
  - intros w1 t w2 v q l S1 J IH S2 E IE f r L. destruct f as [|f]; [lia|]. cbn [js_elements]. rewrite !app_length in L. cbn [List.length] in L. rewrite <- !app_assoc.
    cbn [app]. rewrite IH; [|auto|apply after_follow, follow_spaces; auto|lia]. rewrite next_read by auto. cbn [N.eqb Pos.eqb]. rewrite IE by lia. reflexivity.
  - intros w1 k w2 w3 t w4 v S1 K S2 S3 J IH S4 f r L. destruct f as [|f]; [lia|]. cbn [js_members].
    rewrite !app_length in L. cbn [List.length] in L. rewrite !app_length in L. cbn [List.length] in L. rewrite !app_length in L. cbn [List.length] in L. rewrite !app_length in L.
    rewrite <- !app_assoc. cbn [app]. rewrite next_read by auto. cbn [N.eqb Pos.eqb]. rewrite <- !app_assoc. cbn [app]. rewrite strm_read by auto.
    rewrite <- !app_assoc. cbn [app]. rewrite next_read by auto. cbn [N.eqb Pos.eqb]. rewrite <- !app_assoc.
    rewrite IH; [|auto|apply after_follow, follow_spaces; auto|lia]. rewrite next_read by auto. reflexivity.
  - intros w1 k w2 w3 t w4 v q l S1 K S2 S3 J IH S4 M IM f r L. destruct f as [|f]; [lia|]. cbn [js_members].
    rewrite !app_length in L. cbn [List.length] in L. rewrite !app_length in L. cbn [List.length] in L. rewrite !app_length in L. cbn [List.length] in L. rewrite !app_length in L. cbn [List.length] in L.
    rewrite <- !app_assoc. cbn [app]. rewrite next_read by auto. cbn [N.eqb Pos.eqb]. rewrite <- !app_assoc. cbn [app]. rewrite strm_read by auto.
    rewrite <- !app_assoc. cbn [app]. rewrite next_read by auto. cbn [N.eqb Pos.eqb]. rewrite <- !app_assoc. cbn [app].
    rewrite IH; [|auto|apply after_follow, follow_spaces; auto|lia]. rewrite next_read by auto. cbn [N.eqb Pos.eqb]. rewrite IM by lia. reflexivity.
Qed.

Lemma value_sound : forall f,
  (forall t j r, js_value f t = Some (j, r) -> exists w doc v, spaces w /\ json_text doc v /\ t = w ++ doc ++ r /\ j = abs v) /\
  (forall t l r, js_elements f t = Some (l, r) -> exists doc vs, elements doc vs /\ t = doc ++ 93%N :: r /\ l = map abs vs) /\
  (forall t l r, js_members f t = Some (l, r) -> exists doc vs, members doc vs /\ t = doc ++ 125%N :: r /\ l = map abs_member vs).
Proof.
  induction f as [|f (IV & IE & IM)]; [repeat split; discriminate|]. repeat split.
  - intros t j r H. cbn [js_value] in H. destruct (js_next t) as [[b r0]|] eqn:N0; [|discriminate].
    destruct (next_inv _ _ _ N0) as (w & W & -> & B).
    destruct (N.eqb_spec b 34) as [->|].
    { destruct (js_str r0) as [[m r1]|] eqn:S; [|discriminate]. inversion H; subst. destruct (string_sound _ _ _ _ S) as (src & SS & ->).
      exists w, (34%N :: src ++ [34%N]), (VString src). split; [auto|]. split; [constructor; auto|]. split; [cbn [app]; rewrite <- app_assoc; reflexivity|].
      cbn [abs]. rewrite strm_read in S by auto. congruence. }
    destruct (N.eqb_spec b 91) as [->|].
    { destruct (js_next r0) as [[c r1]|] eqn:N1; [|discriminate]. destruct (N.eqb_spec c 93) as [->|].
      - inversion H; subst. destruct (next_inv _ _ _ N1) as (w1 & W1 & -> & _). exists w, (91%N :: w1 ++ [93%N]), (VArray []).
        split; [auto|]. split; [constructor; auto|]. split; [cbn [app]; rewrite <- app_assoc; reflexivity|reflexivity].
      - destruct (js_elements f r0) as [[l r2]|] eqn:E; [|discriminate]. inversion H; subst. destruct (IE _ _ _ E) as (doc & vs & EE & -> & ->).
        exists w, (91%N :: doc ++ [93%N]), (VArray vs). split; [auto|]. split; [constructor; auto|]. split; [cbn [app]; rewrite <- app_assoc; reflexivity|reflexivity]. }
    destruct (N.eqb_spec b 123) as [->|].
    { destruct (js_next r0) as [[c r1]|] eqn:N1; [|discriminate]. destruct (N.eqb_spec c 125) as [->|].
      - inversion H; subst. destruct (next_inv _ _ _ N1) as (w1 & W1 & -> & _). exists w, (123%N :: w1 ++ [125%N]), (VObject []).
        split; [auto|]. split; [constructor; auto|]. split; [cbn [app]; rewrite <- app_assoc; reflexivity|reflexivity].
      - destruct (js_members f r0) as [[l r2]|] eqn:E; [|discriminate]. inversion H; subst. destruct (IM _ _ _ E) as (doc & vs & EE & -> & ->).
        exists w, (123%N :: doc ++ [125%N]), (VObject vs). split; [auto|]. split; [constructor; auto|]. split; [cbn [app]; rewrite <- app_assoc; reflexivity|reflexivity]. }
    destruct (N.eqb_spec b 110) as [->|].
    { destruct (strip (s2b "ull") r0) as [r1|] eqn:S; [|discriminate]. inversion H; subst. apply strip_inv in S as ->.
      exists w, (s2b "null"), VNull. split; [auto|]. split; [constructor|]. split; reflexivity. }
    destruct (N.eqb_spec b 116) as [->|].
    { destruct (strip (s2b "rue") r0) as [r1|] eqn:S; [|discriminate]. inversion H; subst. apply strip_inv in S as ->.
      exists w, (s2b "true"), (VBool true). split; [auto|]. split; [constructor|]. split; reflexivity. }
    destruct (N.eqb_spec b 102) as [->|].
    { destruct (strip (s2b "alse") r0) as [r1|] eqn:S; [|discriminate]. inversion H; subst. apply strip_inv in S as ->.
      exists w, (s2b "false"), (VBool false). split; [auto|]. split; [constructor|]. split; reflexivity. }
    destruct (number_sound _ _ _ H) as (s & NS & E & ->). exists w, s, (VNumber s). split; [auto|]. split; [constructor; auto|]. split; [rewrite E; reflexivity|reflexivity].
  - intros t l r H. cbn [js_elements] in H. destruct (js_value f t) as [[j r0]|] eqn:V; [|discriminate].
    destruct (IV _ _ _ V) as (w & doc & v & W & J & -> & ->). destruct (js_next r0) as [[c r1]|] eqn:N1; [|discriminate].
    destruct (next_inv _ _ _ N1) as (w2 & W2 & -> & _). destruct (N.eqb_spec c 93) as [->|].
    { inversion H; subst. exists (w ++ doc ++ w2), [v]. split; [constructor; auto|]. split; [rewrite <- !app_assoc; reflexivity|reflexivity]. }
    destruct (N.eqb_spec c 44) as [->|]; [|discriminate]. destruct (js_elements f r1) as [[l' r2]|] eqn:E; [|discriminate]. inversion H; subst.
    destruct (IE _ _ _ E) as (doc' & vs & EE & -> & ->). exists (w ++ doc ++ w2 ++ 44%N :: doc'), (v :: vs). split; [constructor; auto|].
    split; [rewrite <- !app_assoc; reflexivity|reflexivity].
  - intros t l r H. cbn [js_members] in H. destruct (js_next t) as [[q r0]|] eqn:N0; [|discriminate].
    destruct (next_inv _ _ _ N0) as (w1 & W1 & -> & _). destruct (N.eqb_spec q 34) as [->|]; [|discriminate].
    destruct (js_str r0) as [[k r1]|] eqn:S; [|discriminate]. destruct (string_sound _ _ _ _ S) as (src & SS & ->). rewrite strm_read in S by auto.
    inversion S; subst. destruct (js_next r1) as [[c r2]|] eqn:N1; [|discriminate]. destruct (next_inv _ _ _ N1) as (w2 & W2 & -> & _).
    destruct (N.eqb_spec c 58) as [->|]; [|discriminate]. destruct (js_value f r2) as [[j r3]|] eqn:V; [|discriminate].
    destruct (IV _ _ _ V) as (w3 & doc & v & W3 & J & -> & ->). destruct (js_next r3) as [[e r4]|] eqn:N2; [|discriminate].
    destruct (next_inv _ _ _ N2) as (w4 & W4 & -> & _). destruct (N.eqb_spec e 125) as [->|].
    { inversion H; subst. exists (w1 ++ 34%N :: src ++ 34%N :: w2 ++ 58%N :: w3 ++ doc ++ w4), [(src, v)]. split; [constructor; auto|].
      split; [|reflexivity]. repeat (rewrite <- !app_assoc; cbn [app]). reflexivity. }
    destruct (N.eqb_spec e 44) as [->|]; [|discriminate]. destruct (js_members f r4) as [[l' r5]|] eqn:E; [|discriminate]. inversion H; subst.
    destruct (IM _ _ _ E) as (doc' & vs & EE & -> & ->).
    exists (w1 ++ 34%N :: src ++ 34%N :: w2 ++ 58%N :: w3 ++ doc ++ w4 ++ 44%N :: doc'), ((src, v) :: vs). split; [constructor; auto|].
    split; [|reflexivity]. repeat (rewrite <- !app_assoc; cbn [app]). reflexivity.
Qed.

(** ** The description *)

Lemma says_number_iff : forall v n, as_num (abs v) = Some n <-> says_number v n.
Proof.
  intros v n. unfold says_number. split.
  - destruct v; try discriminate. cbn [abs as_num]. intros H. apply numv_spec in H as [-> L]. auto.
  - intros [-> L]. cbn [abs as_num]. apply numv_spec. auto.
Qed.
Lemma says_byte_iff : forall v n, json_u8 (abs v) = Some n <-> says_byte v n.
Proof.
  intros v n. unfold says_byte, json_u8. split.
  - destruct (as_num (abs v)) as [k|] eqn:E; [|discriminate]. apply says_number_iff in E as [-> L].
    destruct (N.ltb_spec k 256); [|discriminate]. intros H'; injection H' as ->. auto.
  - intros [-> L]. rewrite (proj2 (says_number_iff (VNumber (decimal n)) n)) by (split; [reflexivity|lia]).
    rewrite (proj2 (N.ltb_lt n 256)) by auto. reflexivity.
Qed.
Lemma says_string_iff : forall v s, as_str (abs v) = Some s <-> says_string v s.
Proof.
  intros v s. unfold says_string. split.
  - destruct v; try discriminate. cbn [abs as_str]. intros H. apply strm_meaning in H. eauto.
  - intros (src & -> & M). cbn [abs as_str]. apply strm_meaning; auto.
Qed.

(** A conversion that agrees with a relation. *)
Definition agrees {A} (f : json -> option A) (P : value -> A -> Prop) : Prop := forall v a, f (abs v) = Some a <-> P v a.

Lemma all_some_iff : forall A (f : json -> option A) P vs l, agrees f P -> (all_some f (map abs vs) = Some l <-> Forall2 P vs l).
Proof.
  intros A f P vs l H. revert l. induction vs as [|v vs IH]; intros l; cbn [map all_some].
  - split; [intros E; injection E as <-; constructor|intros F; inversion F; reflexivity].
  - split.
    + destruct (f (abs v)) as [a|] eqn:E; [|discriminate]. destruct (all_some f (map abs vs)) as [l'|] eqn:E'; [|discriminate].
      intros X; injection X as <-. constructor; [apply H; auto|]. apply IH; auto.
    + intros F. inversion F as [|? a ? l' P1 F1]; subst. rewrite (proj2 (H v a)) by auto. rewrite (proj2 (IH l')) by auto. reflexivity.
Qed.
Lemma list_agrees : forall A (f : json -> option A) P, agrees f P -> agrees (as_list f) (says_list P).
Proof.
  intros A f P H v l. unfold says_list. split.
  - destruct v; try discriminate. cbn [abs as_list]. intros E. eexists; split; [reflexivity|]. eapply all_some_iff; eauto.
  - intros (vs & -> & F). cbn [abs as_list]. apply (all_some_iff _ f P); auto.
Qed.
Lemma option_agrees : forall A (f : json -> option A) P, agrees f P -> agrees (as_option f) (says_option P).
Proof.
  intros A f P H v x. unfold says_option. split.
  - intros E. destruct x as [a|].
    + destruct v; cbn [abs as_option] in E; try discriminate; (split; [discriminate|]); apply H; cbn [abs];
        match type of E with match ?g with _ => _ end = _ => destruct g eqn:G end; congruence.
    + destruct v; cbn [abs as_option] in E; try reflexivity;
        match type of E with match ?g with _ => _ end = _ => destruct g eqn:G end; congruence.
  - destruct x as [a|]; [|intros ->; reflexivity]. intros [NN E]. apply H in E.
    destruct v; cbn [abs as_option] in *; try congruence; rewrite E; reflexivity.
Qed.

Lemma key_iff : forall k e, key_is k (abs_member e) = true <-> meaning (fst e) k.
Proof.
  intros k e. unfold key_is, abs_member. cbn [fst]. rewrite <- strm_meaning. destruct (strm (fst e)) as [k'|].
  - rewrite bytes_eqb_eq. split; congruence.
  - split; discriminate.
Qed.
Lemma key_no : forall k e, key_is k (abs_member e) = false <-> ~ meaning (fst e) k.
Proof. intros k e. rewrite <- key_iff. destruct (key_is k (abs_member e)); split; congruence. Qed.
Lemma readable_iff : forall l, keys_read (map abs_member l) = true <-> readable l.
Proof.
  intros l. unfold keys_read, readable. rewrite forallb_forall, Forall_forall. split.
  - intros H e I. specialize (H (abs_member e) (in_map _ _ _ I)). cbn in H. destruct (strm (fst e)) as [s|] eqn:E; [|discriminate].
    exists s. apply strm_meaning; auto.
  - intros H x I. apply in_map_iff in I as (e & <- & I). destruct (H _ I) as (s & M). cbn. apply strm_meaning in M. rewrite M. reflexivity.
Qed.
Lemma absent_iff : forall k l, filter (key_is k) (map abs_member l) = [] <-> absent k l.
Proof.
  intros k l. unfold absent. induction l as [|e l IH]; cbn [map filter]; [split; auto|].
  destruct (key_is k (abs_member e)) eqn:K.
  - split; [discriminate|]. intros F. apply key_iff in K. exfalso. exact (Forall_inv F K).
  - apply key_no in K. rewrite IH. split; [intros; constructor; auto|apply Forall_inv_tail].
Qed.
Lemma field_iff : forall k l x, filter (key_is k) (map abs_member l) = [x] <-> exists v, field_is k l v /\ x = (Some k, abs v).
Proof.
  intros k l x. split.
  - revert x. induction l as [|e l IH]; intros x; cbn [map filter]; [discriminate|]. destruct (key_is k (abs_member e)) eqn:K.
    + intros H. injection H as <- H. apply absent_iff in H. apply key_iff in K. exists (snd e). split.
      * exists [], (fst e), l. repeat split; auto; [destruct e; reflexivity|constructor].
      * unfold abs_member. apply strm_meaning in K. rewrite K. reflexivity.
    + intros H. destruct (IH _ H) as (v & (l1 & src & l2 & -> & M & A1 & A2) & ->). exists v. split; [|reflexivity].
      exists (e :: l1), src, l2. repeat split; auto. constructor; auto. apply key_no; auto.
  - intros (v & (l1 & src & l2 & -> & M & A1 & A2) & ->). rewrite map_app, filter_app. rewrite (proj2 (absent_iff k l1)) by auto.
    cbn [map filter app]. replace (key_is k (abs_member (src, v))) with true by (symmetry; apply key_iff; auto).
    rewrite (proj2 (absent_iff k l2)) by auto. unfold abs_member. cbn [fst snd]. apply strm_meaning in M. rewrite M. reflexivity.
Qed.
Lemma required_iff : forall A (f : json -> option A) P k l a, agrees f P -> (required f k (map abs_member l) = Some a <-> has P k l a).
Proof.
  intros A f P k l a H. unfold required, has. split.
  - destruct (filter (key_is k) (map abs_member l)) as [|[s j] [|]] eqn:E; try discriminate. intros Q.
    apply field_iff in E as (v & F & X). injection X as -> ->. exists v. split; auto. apply H; auto.
  - intros (v & F & Q). rewrite (proj2 (field_iff k l (Some k, abs v))) by eauto. apply H; auto.
Qed.
Lemma optional_iff : forall A (f : json -> option A) P k l x, agrees f P -> (optional f k (map abs_member l) = Some x <-> may_have P k l x).
Proof.
  intros A f P k l x H. unfold optional, may_have. split.
  - destruct (filter (key_is k) (map abs_member l)) as [|[s j] [|]] eqn:E; try discriminate; intros Q.
    + injection Q as <-. left. split; auto. apply absent_iff; auto.
    + right. apply field_iff in E as (v & F & X). injection X as -> ->. exists v. split; auto. apply (option_agrees _ f P); auto.
  - intros [[E ->]|(v & F & Q)].
    + rewrite (proj2 (absent_iff k l)) by auto. reflexivity.
    + rewrite (proj2 (field_iff k l (Some k, abs v))) by eauto. apply (option_agrees _ f P); auto.
Qed.

Lemma abs_obj : forall l, abs (VObject l) = JObj (map abs_member l).
Proof. reflexivity. Qed.
Lemma strings_agree : agrees (as_list as_str) (says_list says_string).
Proof. apply list_agrees. exact says_string_iff. Qed.

Lemma file_agrees : agrees json_file says_file.
Proof.
  intros v f. unfold says_file. split.
  - destruct v as [| | | |l|l]; try discriminate.
    + intros E. right. destruct l as [|a [|b [|]]]; try discriminate E. cbn [abs map json_file] in E. exists a, b. split; [reflexivity|].
      destruct (as_list as_str (abs a)) as [p|] eqn:E1; [|discriminate]. destruct (as_num (abs b)) as [n|] eqn:E2; [|discriminate].
      injection E as <-. cbn [f_path f_length]. split; [apply strings_agree|apply says_number_iff]; auto.
    + intros E. left. exists l. split; [reflexivity|]. rewrite abs_obj in E. cbn [json_file] in E.
      destruct (keys_read (map abs_member l)) eqn:K; [|discriminate]. apply readable_iff in K.
      destruct (required (as_list as_str) (s2b "path") (map abs_member l)) as [p|] eqn:E1; [|discriminate].
      destruct (required as_num (s2b "length") (map abs_member l)) as [n|] eqn:E2; [|discriminate]. injection E as <-. cbn [f_path f_length].
      split; [auto|]. split; [apply (required_iff _ _ _ _ _ _ strings_agree); auto|apply (required_iff _ _ _ _ _ _ says_number_iff); auto].
  - destruct f as [p n]. cbn [f_path f_length]. intros [(l & -> & K & P & L)|(a & b & -> & P & L)].
    + rewrite abs_obj. cbn [json_file]. rewrite (proj2 (readable_iff l)) by auto. apply (required_iff _ _ _ _ _ _ strings_agree) in P.
      apply (required_iff _ _ _ _ _ _ says_number_iff) in L. rewrite P, L. reflexivity.
    + cbn [abs map json_file]. apply strings_agree in P. apply says_number_iff in L. rewrite P, L. reflexivity.
Qed.
Lemma files_agree : agrees (as_list json_file) (says_list says_file).
Proof. apply list_agrees. exact file_agrees. Qed.
Lemma bytes_agree : agrees (as_list json_u8) (says_list says_byte).
Proof. apply list_agrees. exact says_byte_iff. Qed.

Lemma info_agrees : agrees json_info says_info.
Proof.
  intros v i. unfold says_info. split.
  - destruct v as [| | | |l|l]; try discriminate.
    + intros E. right. destruct l as [|a [|b [|c [|d [|e [|]]]]]]; try discriminate E. cbn [abs map json_info] in E. exists a, b, c, d, e. split; [reflexivity|].
      destruct (as_option (as_list json_file) (abs a)) eqn:E1; [|discriminate]. destruct (as_option as_num (abs b)) eqn:E2; [|discriminate].
      destruct (as_str (abs c)) eqn:E3; [|discriminate]. destruct (as_num (abs d)) eqn:E4; [|discriminate].
      destruct (as_list json_u8 (abs e)) eqn:E5; [|discriminate]. injection E as <-. cbn [i_files i_length i_name i_piece_length i_pieces].
      split; [apply (option_agrees _ _ _ files_agree); auto|]. split; [apply (option_agrees _ _ _ says_number_iff); auto|].
      split; [apply says_string_iff; auto|]. split; [apply says_number_iff; auto|apply bytes_agree; auto].
    + intros E. left. exists l. split; [reflexivity|]. rewrite abs_obj in E. cbn [json_info] in E.
      destruct (keys_read (map abs_member l)) eqn:K; [|discriminate]. apply readable_iff in K.
      destruct (optional (as_list json_file) (s2b "files") (map abs_member l)) eqn:E1; [|discriminate].
      destruct (optional as_num (s2b "length") (map abs_member l)) eqn:E2; [|discriminate].
      destruct (required as_str (s2b "name") (map abs_member l)) eqn:E3; [|discriminate].
      destruct (required as_num (s2b "piece_length") (map abs_member l)) eqn:E4; [|discriminate].
      destruct (required (as_list json_u8) (s2b "pieces") (map abs_member l)) eqn:E5; [|discriminate].
      injection E as <-. cbn [i_files i_length i_name i_piece_length i_pieces].
      split; [auto|]. split; [apply (optional_iff _ _ _ _ _ _ files_agree); auto|]. split; [apply (optional_iff _ _ _ _ _ _ says_number_iff); auto|].
      split; [apply (required_iff _ _ _ _ _ _ says_string_iff); auto|]. split; [apply (required_iff _ _ _ _ _ _ says_number_iff); auto|].
      apply (required_iff _ _ _ _ _ _ bytes_agree); auto.
  - destruct i as [fs len nm pl ps]. cbn [i_files i_length i_name i_piece_length i_pieces].
    intros [(l & -> & K & H1 & H2 & H3 & H4 & H5)|(a & b & c & d & e & -> & H1 & H2 & H3 & H4 & H5)].
    + rewrite abs_obj. cbn [json_info]. rewrite (proj2 (readable_iff l)) by auto.
      apply (optional_iff _ _ _ _ _ _ files_agree) in H1. apply (optional_iff _ _ _ _ _ _ says_number_iff) in H2.
      apply (required_iff _ _ _ _ _ _ says_string_iff) in H3. apply (required_iff _ _ _ _ _ _ says_number_iff) in H4.
      apply (required_iff _ _ _ _ _ _ bytes_agree) in H5. rewrite H1, H2, H3, H4, H5. reflexivity.
    + cbn [abs map json_info]. apply (option_agrees _ _ _ files_agree) in H1. apply (option_agrees _ _ _ says_number_iff) in H2.
      apply says_string_iff in H3. apply says_number_iff in H4. apply bytes_agree in H5. rewrite H1, H2, H3, H4, H5. reflexivity.
Qed.

Lemma skip_all : forall w, skip_ws w = [] <-> spaces w.
Proof.
  intros w. split.
  - intros H. destruct (skip_inv w) as (w' & F & E). rewrite H, app_nil_r in E. subst; auto.
  - intros F. rewrite <- (app_nil_r w), skip_spaces by auto. reflexivity.
Qed.
Lemma spaces_follow : forall w, spaces w -> follow w.
Proof. intros [|b w] F; [apply follow_nil|]. apply follow_byte. left. apply js_ws_iff. exact (Forall_inv F). Qed.

Lemma c64_reads : forall t i, info_from_json t = Some i <-> describes_torrent t i.
Proof.
  intros t i. unfold info_from_json, describes_torrent. split.
  - destruct (js_value (js_fuel t) t) as [[j r]|] eqn:E; [|discriminate]. destruct (skip_ws r) eqn:S; [|discriminate]. intros H.
    apply skip_all in S. destruct (proj1 (value_sound _) _ _ _ E) as (w & doc & v & W & J & T & ->). exists w, doc, r, v.
    repeat split; auto. apply info_agrees; auto.
  - intros (w1 & doc & w2 & v & -> & W1 & W2 & J & I).
    rewrite (proj1 value_read _ _ J w1 _ w2 W1); [|apply after_follow, spaces_follow; auto|unfold js_fuel; rewrite !app_length; lia].
    rewrite (proj2 (skip_all w2)) by auto. apply info_agrees; auto.
Qed.

Lemma c64_file : forall d l i, from_file d l = Ret (Ok i) <->
  exists c, d l = Some (NFile c) /\ (exists ns, text_of ns c) /\ describes_torrent c i.
Proof.
  intros d l i. unfold from_file. split.
  - destruct (d l) as [[|c]|]; try discriminate. destruct (utf8_valid c) eqn:U; [|discriminate]. destruct (info_from_json c) as [j|] eqn:J; [|discriminate].
    intros H. injection H as ->. exists c. split; [reflexivity|]. split; [apply c64_text; auto|]. apply c64_reads; auto.
  - intros (c & -> & T & D). apply c64_text in T. apply c64_reads in D. rewrite T, D. reflexivity.
Qed.
Lemma c64_abort : forall d l, from_file d l = Panic <->
  exists c, d l = Some (NFile c) /\ (exists ns, text_of ns c) /\ (forall i, ~ describes_torrent c i).
Proof.
  intros d l. unfold from_file. split.
  - destruct (d l) as [[|c]|]; try discriminate. destruct (utf8_valid c) eqn:U; [|discriminate]. destruct (info_from_json c) as [j|] eqn:J; [discriminate|].
    intros _. exists c. split; [reflexivity|]. split; [apply c64_text; auto|]. intros i D. apply c64_reads in D. congruence.
  - intros (c & -> & T & D). apply c64_text in T. rewrite T. destruct (info_from_json c) as [j|] eqn:J; [|reflexivity].
    apply c64_reads in J. destruct (D _ J).
Qed.
Lemma c64_one : forall t i j, describes_torrent t i -> describes_torrent t j -> i = j.
Proof. intros t i j A B. apply c64_reads in A, B. congruence. Qed.
Lemma c64_saved : forall accept d l i d', rust_info i -> save accept d l i = Ret (Ok tt, d') ->
  exists c, d' l = Some (NFile c) /\ (exists ns, text_of ns c) /\ describes_torrent c i.
Proof.
  intros accept d l i d' R H. apply c64_file. apply (proj1 (c51_reads_back _ _ _ _ _ R H)).
Qed.
