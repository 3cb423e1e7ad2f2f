(** ProofCache: the saved torrent description: reading back, interrupted writes, restarts. *)
From Verif Require Import Base Utf8 ModelBencode ModelTorrent ModelWriter ModelTracker ModelStream ModelPeer
  ModelCache SpecBencode ProofBase SpecCache.

(** ** Reading does not depend on what follows, once it has succeeded *)

Lemma skip_ws_app : forall t b r x, skip_ws t = b :: r -> skip_ws (t ++ x) = b :: (r ++ x).
Proof.
  induction t as [|a t IH]; intros b r x H; cbn [skip_ws app] in *; [discriminate|].
  destruct (js_ws a); auto. injection H as -> ->. reflexivity.
Qed.

Lemma js_next_app : forall t b r x, js_next t = Some (b, r) -> js_next (t ++ x) = Some (b, r ++ x).
Proof.
  unfold js_next. intros t b r x H. destruct (skip_ws t) as [|c q] eqn:E; [discriminate|].
  injection H as -> ->. now rewrite (skip_ws_app _ _ _ _ E).
Qed.

Lemma skip_ws_len : forall t, List.length (skip_ws t) <= List.length t.
Proof. induction t as [|a t IH]; cbn [skip_ws]; auto. destruct (js_ws a); cbn [List.length]; lia. Qed.

Lemma js_next_len : forall t b r, js_next t = Some (b, r) -> List.length r < List.length t.
Proof.
  unfold js_next. intros t b r H. pose proof (skip_ws_len t). destruct (skip_ws t); [discriminate|].
  injection H as -> ->. cbn [List.length] in *. lia.
Qed.

Lemma strip_app : forall p t r x, strip p t = Some r -> strip p (t ++ x) = Some (r ++ x).
Proof.
  induction p as [|a p IH]; intros t r x H; cbn [strip] in *.
  - injection H as ->. reflexivity.
  - destruct t as [|b t]; [discriminate|]. cbn [app]. destruct (a =? b)%N; [auto|discriminate].
Qed.

Lemma strip_len : forall p t r, strip p t = Some r -> List.length r <= List.length t.
Proof.
  induction p as [|a p IH]; intros t r H; cbn [strip] in *.
  - injection H as ->. lia.
  - destruct t as [|b t]; [discriminate|]. destruct (a =? b)%N; [|discriminate].
    apply IH in H. cbn [List.length]. lia.
Qed.

Lemma low_half_app : forall t m x, low_half t = Some m -> low_half (t ++ x) = Some m.
Proof.
  intros t m x H. destruct t as [|a [|b [|c [|d [|e [|f t]]]]]]; try discriminate. exact H.
Qed.

Lemma low_half_len : forall t m, low_half t = Some m -> 6 <= List.length t.
Proof.
  intros t m H. destruct t as [|a [|b [|c [|d [|e [|f t]]]]]]; try discriminate. cbn [List.length]. lia.
Qed.

Lemma js_cons_some : forall c y s r, js_cons c y = Some (s, r) ->
  exists s', y = Some (s', r) /\ s = match s' with Some u => Some (c ++ u) | None => None end.
Proof.
  intros c [[[u|] q]|] s r H; cbn in H; try discriminate; injection H as <- <-; eauto.
Qed.

Lemma js_bad_some : forall y s r, js_bad y = Some (s, r) -> s = None /\ exists s', y = Some (s', r).
Proof. intros [[u q]|] s r H; cbn in H; try discriminate. injection H as <- <-. eauto. Qed.

(** a text that reads as a string cannot end in the middle of a second surrogate *)
Lemma low_half_none : forall f t s r x, js_read_string f t = Some (s, r) -> low_half t = None ->
  low_half (t ++ x) = None.
Proof.
  intros f t s r x H N. destruct (Nat.lt_ge_cases (List.length t) 6) as [L|L].
  2:{ destruct t as [|a [|b [|c [|d [|e [|g t]]]]]]; cbn [List.length] in L; try lia. exact N. }
  destruct f; [discriminate|]. cbn [js_read_string] in H.
  destruct t as [|b t1]; [discriminate|].
  destruct (b =? 34)%N eqn:Eq.
  { apply N.eqb_eq in Eq. subst. unfold low_half. cbn [app].
    destruct (t1 ++ x) as [|? [|? [|? [|? [|? ?]]]]]; reflexivity. }
  destruct (b =? 92)%N eqn:Eb.
  2:{ unfold low_half. cbn [app].
      destruct (t1 ++ x) as [|? [|? [|? [|? [|? ?]]]]]; try reflexivity. now rewrite Eb. }
  destruct t1 as [|e t2]; [discriminate|].
  destruct (e =? 117)%N eqn:Ee.
  2:{ unfold low_half. cbn [app]. destruct (t2 ++ x) as [|? [|? [|? [|? ?]]]]; try reflexivity.
      now rewrite Ee, andb_false_r. }
  destruct t2 as [|h1 [|h2 [|h3 [|h4 t6]]]]; try discriminate. cbn [List.length] in L. lia.
Qed.

Lemma js_read_string_app : forall f t s r x f', f <= f' -> js_read_string f t = Some (s, r) ->
  js_read_string f' (t ++ x) = Some (s, r ++ x).
Proof.
  induction f as [|f IH]; intros t s r x f' Hf H; [discriminate|].
  destruct f' as [|f']; [lia|]. assert (Hf' : f <= f') by lia.
  cbn [js_read_string] in H |- *. destruct t as [|b t1]; [discriminate|]. cbn [app].
  destruct (b =? 34)%N. { injection H as <- <-. reflexivity. }
  destruct (b =? 92)%N.
  - destruct t1 as [|e t2]; [discriminate|]. cbn [app]. destruct (e =? 117)%N.
    + destruct t2 as [|h1 [|h2 [|h3 [|h4 t6]]]]; try discriminate. cbn [app].
      destruct (hex4 h1 h2 h3 h4) as [n|]; [|discriminate].
      destruct (low_surrogate n).
      { apply js_bad_some in H as (-> & s' & H). now rewrite (IH _ _ _ x f' Hf' H). }
      destruct (high_surrogate n).
      * destruct (low_half t6) as [m|] eqn:El.
        -- rewrite (low_half_app _ _ x El).
           apply js_cons_some in H as (s' & H & ->).
           rewrite skipn_app. pose proof (low_half_len _ _ El).
           replace (6 - List.length t6) with 0 by lia. change (skipn 0 x) with x.
           rewrite (IH _ _ _ x f' Hf' H). destruct s'; reflexivity.
        -- apply js_bad_some in H as (-> & s' & H).
           rewrite (low_half_none f t6 s' r x H El).
           now rewrite (IH _ _ _ x f' Hf' H).
      * apply js_cons_some in H as (s' & H & ->). rewrite (IH _ _ _ x f' Hf' H). destruct s'; reflexivity.
    + destruct (simple_escape e); [|discriminate].
      apply js_cons_some in H as (s' & H & ->). rewrite (IH _ _ _ x f' Hf' H). destruct s'; reflexivity.
  - destruct (b <? 32)%N; [discriminate|].
    apply js_cons_some in H as (s' & H & ->). rewrite (IH _ _ _ x f' Hf' H). destruct s'; reflexivity.
Qed.

Lemma js_read_string_len : forall f t s r, js_read_string f t = Some (s, r) -> List.length r < List.length t.
Proof.
  induction f as [|f IH]; intros t s r H; [discriminate|].
  cbn [js_read_string] in H. destruct t as [|b t1]; [discriminate|]. cbn [List.length].
  destruct (b =? 34)%N. { injection H as <- <-. lia. }
  destruct (b =? 92)%N.
  - destruct t1 as [|e t2]; [discriminate|]. destruct (e =? 117)%N.
    + destruct t2 as [|h1 [|h2 [|h3 [|h4 t6]]]]; try discriminate. cbn [List.length].
      destruct (hex4 h1 h2 h3 h4) as [n|]; [|discriminate].
      destruct (low_surrogate n).
      { apply js_bad_some in H as (-> & s' & H). apply IH in H. lia. }
      destruct (high_surrogate n).
      * destruct (low_half t6) as [m|] eqn:El.
        -- apply js_cons_some in H as (s' & H & ->). apply IH in H. rewrite skipn_length in H. lia.
        -- apply js_bad_some in H as (-> & s' & H). apply IH in H. lia.
      * apply js_cons_some in H as (s' & H & ->). apply IH in H. lia.
    + destruct (simple_escape e); [|discriminate].
      apply js_cons_some in H as (s' & H & ->). apply IH in H. cbn [List.length]. lia.
  - destruct (b <? 32)%N; [discriminate|].
    apply js_cons_some in H as (s' & H & ->). apply IH in H. lia.
Qed.

Lemma js_str_app : forall t s r x, js_str t = Some (s, r) -> js_str (t ++ x) = Some (s, r ++ x).
Proof.
  unfold js_str. intros t s r x H. eapply js_read_string_app; [|exact H]. rewrite app_length. lia.
Qed.

Lemma js_str_len : forall t s r, js_str t = Some (s, r) -> List.length r < List.length t.
Proof. unfold js_str. intros. eapply js_read_string_len; eauto. Qed.

(** numbers, when something follows *)
Lemma digits_of_app : forall t d r x, digits_of t = (d, r) -> r <> [] -> digits_of (t ++ x) = (d, r ++ x).
Proof.
  induction t as [|b t IH]; intros d r x H Hr; cbn [digits_of app] in *.
  - injection H as <- <-. congruence.
  - destruct (is_digit b).
    + destruct (digits_of t) as [d' r'] eqn:E. injection H as <- <-. now rewrite (IH d' r' x eq_refl Hr).
    + injection H as <- <-. reflexivity.
Qed.

Lemma digits_of_len : forall t d r, digits_of t = (d, r) -> List.length t = List.length d + List.length r.
Proof.
  induction t as [|b t IH]; intros d r H; cbn [digits_of] in *.
  - injection H as <- <-. reflexivity.
  - destruct (is_digit b).
    + destruct (digits_of t) as [d' r'] eqn:E. injection H as <- <-. cbn [List.length].
      rewrite (IH d' r' eq_refl). lia.
    + injection H as <- <-. reflexivity.
Qed.

Lemma some_digits_app : forall t r x, some_digits t = Some r -> r <> [] -> some_digits (t ++ x) = Some (r ++ x).
Proof.
  unfold some_digits. intros t r x H Hr. destruct (digits_of t) as [[|d ds] q] eqn:E; [discriminate|].
  injection H as ->. now rewrite (digits_of_app _ _ _ x E Hr).
Qed.

Lemma some_digits_len : forall t r, some_digits t = Some r -> List.length r < List.length t.
Proof.
  unfold some_digits. intros t r H. destruct (digits_of t) as [[|d ds] q] eqn:E; [discriminate|].
  injection H as ->. apply digits_of_len in E. cbn [List.length] in E. lia.
Qed.

Lemma js_integer_app : forall t n r x, js_integer t = Some (n, r) -> r <> [] ->
  js_integer (t ++ x) = Some (n, r ++ x).
Proof.
  unfold js_integer. intros t n r x H Hr. destruct (digits_of t) as [[|d ds] q] eqn:E; [discriminate|].
  assert (q = r) by (destruct ds; [|destruct (d =? 48)%N]; congruence). subst q.
  rewrite (digits_of_app _ _ _ x E Hr).
  destruct ds; [|destruct (d =? 48)%N; [discriminate|]]; injection H as <-; reflexivity.
Qed.

Lemma js_integer_len : forall t n r, js_integer t = Some (n, r) -> List.length r < List.length t.
Proof.
  unfold js_integer. intros t n r H. destruct (digits_of t) as [[|d ds] q] eqn:E; [discriminate|].
  assert (q = r) by (destruct ds; [|destruct (d =? 48)%N]; congruence). subst q.
  apply digits_of_len in E. cbn [List.length] in E. lia.
Qed.

Lemma js_fraction_app : forall t b r x, js_fraction t = Some (b, r) -> r <> [] ->
  t <> [] /\ js_fraction (t ++ x) = Some (b, r ++ x).
Proof.
  unfold js_fraction. intros [|c t] b r x H Hr; [congruence|]. split; [congruence|]. cbn [app].
  destruct (c =? 46)%N.
  - destruct (some_digits t) as [q|] eqn:E; [|discriminate]. injection H as <- ->.
    now rewrite (some_digits_app _ _ x E Hr).
  - injection H as <- <-. reflexivity.
Qed.

Lemma js_fraction_len : forall t b r, js_fraction t = Some (b, r) -> List.length r <= List.length t.
Proof.
  unfold js_fraction. intros [|c t] b r H; [injection H as <- <-; auto|].
  destruct (c =? 46)%N; [|injection H as <- <-; auto].
  destruct (some_digits t) as [q|] eqn:E; [|discriminate]. injection H as <- ->.
  apply some_digits_len in E. cbn [List.length]. lia.
Qed.

Lemma js_exponent_app : forall t b r x, js_exponent t = Some (b, r) -> r <> [] ->
  t <> [] /\ js_exponent (t ++ x) = Some (b, r ++ x).
Proof.
  unfold js_exponent. intros [|c t] b r x H Hr; [congruence|]. split; [congruence|]. cbn [app].
  destruct ((c =? 101)%N || (c =? 69)%N).
  - destruct (some_digits (js_sign t)) as [q|] eqn:E; [|discriminate]. injection H as <- ->.
    assert (Hs : js_sign (t ++ x) = js_sign t ++ x).
    { destruct t as [|a t]; [discriminate|]. cbn [js_sign app]. now destruct ((a =? 43)%N || (a =? 45)%N). }
    now rewrite Hs, (some_digits_app _ _ x E Hr).
  - injection H as <- <-. reflexivity.
Qed.

Lemma js_sign_len : forall t, List.length (js_sign t) <= List.length t.
Proof. intros [|a t]; cbn [js_sign]; auto. destruct ((a =? 43)%N || (a =? 45)%N); cbn [List.length]; lia. Qed.

Lemma js_exponent_len : forall t b r, js_exponent t = Some (b, r) -> List.length r <= List.length t.
Proof.
  unfold js_exponent. intros [|c t] b r H; [injection H as <- <-; auto|].
  destruct ((c =? 101)%N || (c =? 69)%N); [|injection H as <- <-; auto].
  destruct (some_digits (js_sign t)) as [q|] eqn:E; [|discriminate]. injection H as <- ->.
  apply some_digits_len in E. pose proof (js_sign_len t). cbn [List.length]. lia.
Qed.

Lemma js_unsigned_app : forall g t v r x, js_unsigned g t = Some (v, r) -> r <> [] ->
  js_unsigned g (t ++ x) = Some (v, r ++ x).
Proof.
  unfold js_unsigned. intros g t v r x H Hr.
  destruct (js_integer t) as [[n r0]|] eqn:E0; [|discriminate].
  destruct (js_fraction r0) as [[fr r1]|] eqn:E1; [|discriminate].
  destruct (js_exponent r1) as [[ex r2]|] eqn:E2; [|discriminate].
  injection H as <- ->.
  destruct (js_exponent_app _ _ _ x E2 Hr) as [H1 A2].
  destruct (js_fraction_app _ _ _ x E1 H1) as [H0 A1].
  now rewrite (js_integer_app _ _ _ x E0 H0), A1, A2.
Qed.

Lemma js_unsigned_len : forall g t v r, js_unsigned g t = Some (v, r) ->
  List.length r < List.length t /\ exists n, v = JNum n.
Proof.
  unfold js_unsigned. intros g t v r H.
  destruct (js_integer t) as [[n r0]|] eqn:E0; [|discriminate].
  destruct (js_fraction r0) as [[fr r1]|] eqn:E1; [|discriminate].
  destruct (js_exponent r1) as [[ex r2]|] eqn:E2; [|discriminate].
  injection H as <- ->.
  apply js_integer_len in E0. apply js_fraction_len in E1. apply js_exponent_len in E2.
  split; [lia|eauto].
Qed.

Lemma js_number_app : forall t v r x, js_number t = Some (v, r) -> r <> [] ->
  js_number (t ++ x) = Some (v, r ++ x).
Proof.
  unfold js_number. intros [|b t] v r x H Hr; [discriminate|]. cbn [app].
  destruct (b =? 45)%N; [now apply js_unsigned_app|].
  now apply (js_unsigned_app false (b :: t)).
Qed.

Lemma js_number_len : forall t v r, js_number t = Some (v, r) ->
  List.length r < List.length t /\ exists n, v = JNum n.
Proof.
  unfold js_number. intros [|b t] v r H; [discriminate|].
  destruct (b =? 45)%N; apply js_unsigned_len in H; cbn [List.length] in *; intuition lia.
Qed.

Definition not_number (v : json) : Prop := forall n, v <> JNum n.

(** the main statement: success is stable under more fuel and under text that follows *)
Lemma js_stable : forall f,
  (forall t v r x f', f <= f' -> js_value f t = Some (v, r) -> r <> [] \/ not_number v ->
     js_value f' (t ++ x) = Some (v, r ++ x)) /\
  (forall t v r x f', f <= f' -> js_elements f t = Some (v, r) -> js_elements f' (t ++ x) = Some (v, r ++ x)) /\
  (forall t v r x f', f <= f' -> js_members f t = Some (v, r) -> js_members f' (t ++ x) = Some (v, r ++ x)).
Proof.
  induction f as [|f (IV & IE & IM)]; [repeat split; intros; discriminate|].
  repeat split; intros t v r x f' Hf H; destruct f' as [|f']; try lia; assert (Hf' : f <= f') by lia.
  - intros Hr. cbn [js_value] in H |- *.
    destruct (js_next t) as [[b q]|] eqn:En; [|discriminate]. rewrite (js_next_app _ _ _ x En).
    destruct (b =? 34)%N.
    { destruct (js_str q) as [[s r1]|] eqn:E; [|discriminate]. injection H as <- <-.
      now rewrite (js_str_app _ _ _ x E). }
    destruct (b =? 91)%N.
    { destruct (js_next q) as [[c r1]|] eqn:E; [|discriminate]. rewrite (js_next_app _ _ _ x E).
      destruct (c =? 93)%N; [injection H as <- <-; reflexivity|].
      destruct (js_elements f q) as [[l r2]|] eqn:E2; [|discriminate]. injection H as <- <-.
      now rewrite (IE _ _ _ x f' Hf' E2). }
    destruct (b =? 123)%N.
    { destruct (js_next q) as [[c r1]|] eqn:E; [|discriminate]. rewrite (js_next_app _ _ _ x E).
      destruct (c =? 125)%N; [injection H as <- <-; reflexivity|].
      destruct (js_members f q) as [[l r2]|] eqn:E2; [|discriminate]. injection H as <- <-.
      now rewrite (IM _ _ _ x f' Hf' E2). }
    destruct (b =? 110)%N.
    { destruct (strip (s2b "ull") q) eqn:E; [|discriminate]. injection H as <- <-.
      now rewrite (strip_app _ _ _ x E). }
    destruct (b =? 116)%N.
    { destruct (strip (s2b "rue") q) eqn:E; [|discriminate]. injection H as <- <-.
      now rewrite (strip_app _ _ _ x E). }
    destruct (b =? 102)%N.
    { destruct (strip (s2b "alse") q) eqn:E; [|discriminate]. injection H as <- <-.
      now rewrite (strip_app _ _ _ x E). }
    destruct (js_number_len _ _ _ H) as [_ [n ->]].
    destruct Hr as [Hr|Hr]; [|now destruct (Hr n)].
    exact (js_number_app _ _ _ x H Hr).
  - cbn [js_elements] in H |- *.
    destruct (js_value f t) as [[w q]|] eqn:Ev; [|discriminate].
    destruct (js_next q) as [[c r1]|] eqn:En; [|discriminate].
    assert (Hq : q <> []) by (intros ->; discriminate).
    rewrite (IV _ _ _ x f' Hf' Ev (or_introl Hq)), (js_next_app _ _ _ x En).
    destruct (c =? 93)%N; [injection H as <- <-; reflexivity|]. destruct (c =? 44)%N; [|discriminate].
    destruct (js_elements f r1) as [[l r2]|] eqn:E2; [|discriminate]. injection H as <- <-.
    now rewrite (IE _ _ _ x f' Hf' E2).
  - cbn [js_members] in H |- *.
    destruct (js_next t) as [[b q]|] eqn:En; [|discriminate]. rewrite (js_next_app _ _ _ x En).
    destruct (b =? 34)%N; [|discriminate].
    destruct (js_str q) as [[k r1]|] eqn:E1; [|discriminate]. rewrite (js_str_app _ _ _ x E1).
    destruct (js_next r1) as [[c r2]|] eqn:E2; [|discriminate]. rewrite (js_next_app _ _ _ x E2).
    destruct (c =? 58)%N; [|discriminate].
    destruct (js_value f r2) as [[w r3]|] eqn:E3; [|discriminate].
    destruct (js_next r3) as [[e r4]|] eqn:E4; [|discriminate].
    assert (Hq : r3 <> []) by (intros ->; discriminate).
    rewrite (IV _ _ _ x f' Hf' E3 (or_introl Hq)), (js_next_app _ _ _ x E4).
    destruct (e =? 125)%N; [injection H as <- <-; reflexivity|]. destruct (e =? 44)%N; [|discriminate].
    destruct (js_members f r4) as [[l r5]|] eqn:E5; [|discriminate]. injection H as <- <-.
    now rewrite (IM _ _ _ x f' Hf' E5).
Qed.

Lemma js_value_len : forall f,
  (forall t v r, js_value f t = Some (v, r) -> List.length r < List.length t) /\
  (forall t v r, js_elements f t = Some (v, r) -> List.length r < List.length t) /\
  (forall t v r, js_members f t = Some (v, r) -> List.length r < List.length t).
Proof.
  induction f as [|f (IV & IE & IM)]; [repeat split; intros; discriminate|].
  repeat split; intros t v r H.
  - cbn [js_value] in H. destruct (js_next t) as [[b q]|] eqn:En; [|discriminate].
    pose proof (js_next_len _ _ _ En) as L0.
    destruct (b =? 34)%N.
    { destruct (js_str q) as [[s r1]|] eqn:E; [|discriminate]. injection H as <- <-.
      apply js_str_len in E. lia. }
    destruct (b =? 91)%N.
    { destruct (js_next q) as [[c r1]|] eqn:E; [|discriminate]. apply js_next_len in E.
      destruct (c =? 93)%N; [injection H as <- <-; lia|].
      destruct (js_elements f q) as [[l r2]|] eqn:E2; [|discriminate]. injection H as <- <-.
      apply IE in E2. lia. }
    destruct (b =? 123)%N.
    { destruct (js_next q) as [[c r1]|] eqn:E; [|discriminate]. apply js_next_len in E.
      destruct (c =? 125)%N; [injection H as <- <-; lia|].
      destruct (js_members f q) as [[l r2]|] eqn:E2; [|discriminate]. injection H as <- <-.
      apply IM in E2. lia. }
    destruct (b =? 110)%N.
    { destruct (strip (s2b "ull") q) eqn:E; [|discriminate]. injection H as <- <-. apply strip_len in E. lia. }
    destruct (b =? 116)%N.
    { destruct (strip (s2b "rue") q) eqn:E; [|discriminate]. injection H as <- <-. apply strip_len in E. lia. }
    destruct (b =? 102)%N.
    { destruct (strip (s2b "alse") q) eqn:E; [|discriminate]. injection H as <- <-. apply strip_len in E. lia. }
    apply js_number_len in H as [H _]. cbn [List.length] in H. lia.
  - cbn [js_elements] in H. destruct (js_value f t) as [[w q]|] eqn:Ev; [|discriminate].
    destruct (js_next q) as [[c r1]|] eqn:En; [|discriminate].
    apply IV in Ev. apply js_next_len in En.
    destruct (c =? 93)%N; [injection H as <- <-; lia|]. destruct (c =? 44)%N; [|discriminate].
    destruct (js_elements f r1) as [[l r2]|] eqn:E2; [|discriminate]. injection H as <- <-.
    apply IE in E2. lia.
  - cbn [js_members] in H. destruct (js_next t) as [[b q]|] eqn:En; [|discriminate].
    apply js_next_len in En. destruct (b =? 34)%N; [|discriminate].
    destruct (js_str q) as [[k r1]|] eqn:E1; [|discriminate]. apply js_str_len in E1.
    destruct (js_next r1) as [[c r2]|] eqn:E2; [|discriminate]. apply js_next_len in E2.
    destruct (c =? 58)%N; [|discriminate].
    destruct (js_value f r2) as [[w r3]|] eqn:E3; [|discriminate]. apply IV in E3.
    destruct (js_next r3) as [[e r4]|] eqn:E4; [|discriminate]. apply js_next_len in E4.
    destruct (e =? 125)%N; [injection H as <- <-; lia|]. destruct (e =? 44)%N; [|discriminate].
    destruct (js_members f r4) as [[l r5]|] eqn:E5; [|discriminate]. injection H as <- <-.
    apply IM in E5. lia.
Qed.

(** the fuel of [info_from_json] never decides the result *)
Lemma js_enough : forall f,
  (forall t f', 2 * List.length t + 1 <= f -> f <= f' -> js_value f' t = js_value f t) /\
  (forall t f', 2 * List.length t + 2 <= f -> f <= f' -> js_elements f' t = js_elements f t) /\
  (forall t f', 2 * List.length t + 2 <= f -> f <= f' -> js_members f' t = js_members f t).
Proof.
  induction f as [|f (IV & IE & IM)]; [repeat split; intros; lia|].
  repeat split; intros t f' Hl Hf; destruct f' as [|f']; try lia; assert (Hf' : f <= f') by lia.
  - cbn [js_value]. destruct (js_next t) as [[b q]|] eqn:En; auto.
    pose proof (js_next_len _ _ _ En) as L0.
    rewrite (IE q f') by lia. rewrite (IM q f') by lia. reflexivity.
  - cbn [js_elements]. rewrite (IV t f') by lia.
    destruct (js_value f t) as [[w q]|] eqn:Ev; auto.
    destruct (js_next q) as [[c r1]|] eqn:En; auto.
    apply (js_value_len f) in Ev. apply js_next_len in En.
    rewrite (IE r1 f') by lia. reflexivity.
  - cbn [js_members]. destruct (js_next t) as [[b q]|] eqn:En; auto. apply js_next_len in En.
    destruct (b =? 34)%N; auto.
    destruct (js_str q) as [[k r1]|] eqn:E1; auto. apply js_str_len in E1.
    destruct (js_next r1) as [[c r2]|] eqn:E2; auto. apply js_next_len in E2.
    destruct (c =? 58)%N; auto. rewrite (IV r2 f') by lia.
    destruct (js_value f r2) as [[w r3]|] eqn:E3; auto. apply (js_value_len f) in E3.
    destruct (js_next r3) as [[e r4]|] eqn:E4; auto. apply js_next_len in E4.
    rewrite (IM r4 f') by lia. reflexivity.
Qed.

Lemma js_value_fuel : forall f t v r, js_value f t = Some (v, r) -> r <> [] \/ not_number v ->
  js_value (js_fuel t) t = Some (v, r).
Proof.
  intros f t v r H Hr.
  assert (E : js_value (Nat.max f (js_fuel t)) t = Some (v, r)).
  { rewrite <- (app_nil_r t) at 2. rewrite <- (app_nil_r r).
    apply (proj1 (js_stable f)); auto. lia. }
  rewrite <- E. symmetry. apply (proj1 (js_enough (js_fuel t))); unfold js_fuel; lia.
Qed.

(** ** Reading back what was written *)

Definition reads (t : bytes) (v : json) : Prop :=
  exists f, forall c r, c = 44%N \/ c = 93%N \/ c = 125%N -> js_value f (t ++ c :: r) = Some (v, c :: r).

Lemma js_next_plain : forall b r, js_ws b = false -> js_next (b :: r) = Some (b, r).
Proof. intros b r H. unfold js_next. cbn [skip_ws]. now rewrite H. Qed.

Lemma hex_lower_value : forall d, (d < 16)%N -> hex_value (hex_lower d) = Some d.
Proof.
  intros d H. unfold hex_lower, hex_value, is_digit, in_range.
  destruct (d <? 10)%N eqn:E.
  - apply N.ltb_lt in E.
    rewrite (proj2 (N.leb_le 48 (48 + d))), (proj2 (N.leb_le (48 + d) 57)) by lia. cbn [andb]. f_equal. lia.
  - apply N.ltb_ge in E.
    rewrite (proj2 (N.leb_gt (87 + d) 57)) by lia. rewrite andb_false_r.
    rewrite (proj2 (N.leb_gt (87 + d) 70)) by lia. rewrite andb_false_r.
    rewrite (proj2 (N.leb_le 97 (87 + d))), (proj2 (N.leb_le (87 + d) 102)) by lia. cbn [andb]. f_equal. lia.
Qed.

Lemma js_read_escape : forall b f t s r, js_read_string f t = Some (Some s, r) ->
  js_read_string (S f) (js_escape b ++ t) = Some (Some (b :: s), r).
Proof.
  intros b f t s r H. unfold js_escape.
  destruct (b =? 34)%N eqn:E1. { apply N.eqb_eq in E1. subst. cbn. now rewrite H. }
  destruct (b =? 92)%N eqn:E2. { apply N.eqb_eq in E2. subst. cbn. now rewrite H. }
  destruct (b =? 8)%N eqn:E3. { apply N.eqb_eq in E3. subst. cbn. now rewrite H. }
  destruct (b =? 9)%N eqn:E4. { apply N.eqb_eq in E4. subst. cbn. now rewrite H. }
  destruct (b =? 10)%N eqn:E5. { apply N.eqb_eq in E5. subst. cbn. now rewrite H. }
  destruct (b =? 12)%N eqn:E6. { apply N.eqb_eq in E6. subst. cbn. now rewrite H. }
  destruct (b =? 13)%N eqn:E7. { apply N.eqb_eq in E7. subst. cbn. now rewrite H. }
  destruct (b <? 32)%N eqn:E8.
  - apply N.ltb_lt in E8. cbn [app js_read_string].
    change (92 =? 34)%N with false. change (92 =? 92)%N with true. change (117 =? 117)%N with true.
    cbv iota. unfold hex4. change (hex_value 48) with (Some 0%N).
    rewrite !hex_lower_value by lia.
    replace (((0 * 16 + 0) * 16 + b / 16) * 16 + b mod 16)%N with b by lia.
    assert (L : low_surrogate b = false).
    { unfold low_surrogate, in_range. rewrite (proj2 (N.leb_gt 56320 b)) by lia. reflexivity. }
    assert (Hs : high_surrogate b = false).
    { unfold high_surrogate, in_range. rewrite (proj2 (N.leb_gt 55296 b)) by lia. reflexivity. }
    rewrite L, Hs. unfold utf8_char. rewrite (proj2 (N.ltb_lt b 128)) by lia. now rewrite H.
  - cbn [app js_read_string]. rewrite E1, E2, E8, H. reflexivity.
Qed.

Lemma js_read_back : forall s r, exists f, js_read_string f (flat_map js_escape s ++ 34%N :: r) = Some (Some s, r).
Proof.
  induction s as [|b s IH]; intros r.
  - exists 1. reflexivity.
  - destruct (IH r) as [f H]. exists (S f). cbn [flat_map]. rewrite <- app_assoc. now apply js_read_escape.
Qed.

Lemma js_read_string_fuel : forall f f' t, List.length t < f -> List.length t < f' ->
  js_read_string f t = js_read_string f' t.
Proof.
  induction f as [|f IH]; intros f' t H H'; [lia|]. destruct f' as [|f']; [lia|].
  cbn [js_read_string]. destruct t as [|b t1]; auto. cbn [List.length] in *.
  destruct (b =? 34)%N; auto. destruct (b =? 92)%N.
  - destruct t1 as [|e t2]; auto. cbn [List.length] in *. destruct (e =? 117)%N.
    + destruct t2 as [|h1 [|h2 [|h3 [|h4 t6]]]]; auto. cbn [List.length] in *.
      destruct (hex4 h1 h2 h3 h4) as [n|]; auto.
      rewrite (IH f' t6) by lia.
      rewrite (IH f' (skipn 6 t6)) by (rewrite skipn_length; lia). reflexivity.
    + now rewrite (IH f' t2) by lia.
  - now rewrite (IH f' t1) by lia.
Qed.

Lemma js_str_back : forall s r, js_str (flat_map js_escape s ++ 34%N :: r) = Some (Some s, r).
Proof.
  intros s r. unfold js_str. set (t := flat_map js_escape s ++ 34%N :: r).
  destruct (js_read_back s r) as [f H]. fold t in H.
  rewrite (js_read_string_fuel (S (List.length t)) (Nat.max f (S (List.length t))) t) by lia.
  rewrite <- (app_nil_r t) at 2. rewrite <- (app_nil_r r).
  apply js_read_string_app with (f := f); [lia|exact H].
Qed.

Lemma reads_string : forall s, reads (js_string s) (JStr (Some s)).
Proof.
  intros s. exists 1. intros c r _. unfold js_string. cbn [app js_value].
  rewrite js_next_plain by reflexivity. change (34 =? 34)%N with true. cbv iota.
  rewrite <- app_assoc. cbn [app]. now rewrite js_str_back.
Qed.

Lemma reads_null : reads (s2b "null") JNull.
Proof. exists 1. intros c r _. cbn. reflexivity. Qed.

Lemma digits_of_all : forall d c r, Forall digit d -> is_digit c = false -> digits_of (d ++ c :: r) = (d, c :: r).
Proof.
  induction d as [|x d IH]; intros c r F Hc; cbn [app digits_of].
  - now rewrite Hc.
  - rewrite (proj1 (digit_is_digit x)) by exact (Forall_inv F).
    now rewrite (IH c r (Forall_inv_tail F) Hc).
Qed.

Lemma reads_dec : forall n, usize n -> reads (dec n) (JNum (Some n)).
Proof.
  intros n Hn. exists 1. intros c r Hc. cbn [js_value].
  destruct (dec_canon n) as [(F & NE & Z) V].
  destruct (dec n) as [|d t] eqn:E; [congruence|].
  assert (Hd : digit d) by exact (Forall_inv F). unfold digit in Hd.
  cbn [app]. rewrite js_next_plain.
  2:{ unfold js_ws. rewrite !(proj2 (N.eqb_neq _ _)) by lia. reflexivity. }
  rewrite !(proj2 (N.eqb_neq d _)) by lia.
  unfold js_number. rewrite !(proj2 (N.eqb_neq d _)) by lia.
  assert (Hcd : is_digit c = false) by (destruct Hc as [->|[->| ->]]; reflexivity).
  assert (I : js_integer (d :: t ++ c :: r) = Some (n, c :: r)).
  { unfold js_integer. change (d :: t ++ c :: r) with ((d :: t) ++ c :: r).
    rewrite (digits_of_all (d :: t) c r F Hcd). destruct t as [|d2 t].
    - now rewrite digits_value_numeral, V.
    - rewrite (proj2 (N.eqb_neq d 48)). + now rewrite digits_value_numeral, V.
      + intros ->. specialize (Z _ eq_refl). discriminate. }
  unfold js_unsigned.
  rewrite I. unfold js_fraction, js_exponent.
  assert (C : (c =? 46)%N = false /\ (c =? 101)%N = false /\ (c =? 69)%N = false)
    by (destruct Hc as [->|[->| ->]]; repeat split).
  destruct C as (-> & -> & ->). cbn [orb].
  unfold usize in Hn. rewrite (proj2 (N.ltb_lt n two64)) by exact Hn. reflexivity.
Qed.

Lemma reads_more : forall t v, reads t v -> exists f, forall f' c r, f <= f' ->
  c = 44%N \/ c = 93%N \/ c = 125%N -> js_value f' (t ++ c :: r) = Some (v, c :: r).
Proof.
  intros t v [f H]. exists f. intros f' c r Hf Hc.
  rewrite <- (app_nil_r (t ++ c :: r)). rewrite <- (app_nil_r (c :: r)) at 2.
  apply (proj1 (js_stable f)); auto. left. discriminate.
Qed.

Lemma js_commas_cons : forall x y l, js_commas (x :: y :: l) = x ++ [44%N] ++ js_commas (y :: l).
Proof. reflexivity. Qed.

(** starts with something other than white space or a closing bracket *)
Definition solid (t : bytes) : Prop :=
  exists b r, t = b :: r /\ js_ws b = false /\ b <> 93%N /\ b <> 125%N.

Lemma reads_solid_array : forall ts vs, Forall2 reads ts vs -> ts <> [] ->
  exists f, forall f' r, f <= f' -> js_elements f' (js_commas ts ++ 93%N :: r) = Some (vs, r).
Proof.
  induction ts as [|t ts IH]; intros vs F NE; [congruence|].
  inversion F as [|? v ? vs' Hr F']; subst. destruct (reads_more _ _ Hr) as [fv Hv].
  destruct ts as [|t2 ts].
  - inversion F'; subst. exists (S fv). intros f' r Hf. destruct f' as [|f']; [lia|].
    cbn [js_commas js_elements]. rewrite (Hv f') by (auto; lia).
    rewrite js_next_plain by reflexivity. reflexivity.
  - destruct (IH vs' F' ltac:(discriminate)) as [fe He]. exists (S (Nat.max fv fe)).
    intros f' r Hf. destruct f' as [|f']; [lia|].
    rewrite js_commas_cons, <- app_assoc. cbn [app js_elements].
    rewrite (Hv f') by (auto; lia). rewrite js_next_plain by reflexivity.
    change (44 =? 93)%N with false. change (44 =? 44)%N with true. cbv iota.
    rewrite (He f') by lia. reflexivity.
Qed.

Lemma solid_commas : forall t ts, solid t -> solid (js_commas (t :: ts)).
Proof.
  intros t ts (b & r & -> & H). destruct ts as [|t2 ts].
  - exists b, r. auto.
  - rewrite js_commas_cons. cbn [app]. exists b. eexists. split; [reflexivity|auto].
Qed.

Definition reads_all (t : bytes) (v : json) : Prop :=
  exists f, forall r, js_value f (t ++ r) = Some (v, r).

Lemma reads_all_reads : forall t v, reads_all t v -> reads t v.
Proof. intros t v [f H]. exists f. intros c r _. apply H. Qed.

Lemma reads_array : forall ts vs, Forall2 reads ts vs -> Forall solid ts ->
  reads_all (js_array ts) (JArr vs).
Proof.
  intros ts vs F S. destruct ts as [|t ts].
  - inversion F; subst. exists 1. intros r. reflexivity.
  - destruct (reads_solid_array _ _ F ltac:(discriminate)) as [f H]. exists (Datatypes.S f). intros r.
    unfold js_array. cbn [app js_value]. rewrite js_next_plain by reflexivity.
    change (91 =? 34)%N with false. change (91 =? 91)%N with true. cbv iota.
    rewrite <- app_assoc. cbn [app].
    destruct (solid_commas t ts (Forall_inv S)) as (b & q & E & W & N1 & N2).
    pose proof (H f r (le_n f)) as Hf. rewrite E in Hf |- *. cbn [app] in Hf |- *.
    rewrite js_next_plain by exact W. rewrite (proj2 (N.eqb_neq b 93)) by exact N1.
    now rewrite Hf.
Qed.

Definition member_of (km : bytes * json) (t : bytes) : Prop :=
  exists u, t = js_member (fst km) u /\ reads u (snd km).

Lemma js_members_back : forall kms ts, Forall2 member_of kms ts -> ts <> [] ->
  exists f, forall f' r, f <= f' -> js_members f' (js_commas ts ++ 125%N :: r)
    = Some (map (fun km => (Some (fst km), snd km)) kms, r).
Proof.
  induction kms as [|[k v] kms IH]; intros ts F NE; inversion F as [|? t ? ts' Hm F']; subst; [congruence|].
  destruct Hm as (u & -> & Hr). cbn [fst snd] in *. destruct (reads_more _ _ Hr) as [fv Hv].
  destruct ts' as [|t2 ts'].
  - inversion F'; subst. exists (S fv). intros f' r Hf. destruct f' as [|f']; [lia|].
    cbn [js_commas]. unfold js_member, js_string. cbn [app js_members].
    rewrite js_next_plain by reflexivity. change (34 =? 34)%N with true. cbv iota.
    rewrite <- !app_assoc. cbn [app].
    rewrite js_str_back. rewrite js_next_plain by reflexivity. change (58 =? 58)%N with true. cbv iota.
    rewrite (Hv f') by (auto; lia).
    rewrite js_next_plain by reflexivity. reflexivity.
  - destruct (IH _ F' ltac:(discriminate)) as [fe He]. exists (S (Nat.max fv fe)).
    intros f' r Hf. destruct f' as [|f']; [lia|].
    rewrite js_commas_cons. unfold js_member, js_string. rewrite <- !app_assoc. cbn [app js_members].
    rewrite js_next_plain by reflexivity. change (34 =? 34)%N with true. cbv iota.
    rewrite js_str_back. rewrite js_next_plain by reflexivity. change (58 =? 58)%N with true. cbv iota.
    rewrite (Hv f') by (auto; lia). rewrite js_next_plain by reflexivity.
    change (44 =? 125)%N with false. change (44 =? 44)%N with true. cbv iota.
    rewrite (He f') by lia. reflexivity.
Qed.

Lemma solid_member : forall k u, solid (js_member k u).
Proof. intros k u. unfold js_member, js_string. cbn [app]. eexists _, _. split; [reflexivity|]. repeat split; discriminate. Qed.

Lemma reads_object : forall kms ts, Forall2 member_of kms ts -> ts <> [] ->
  reads_all (js_object ts) (JObj (map (fun km => (Some (fst km), snd km)) kms)).
Proof.
  intros kms ts F NE. destruct (js_members_back _ _ F NE) as [f H]. exists (S f). intros r.
  unfold js_object. cbn [app js_value]. rewrite js_next_plain by reflexivity.
  change (123 =? 34)%N with false. change (123 =? 91)%N with false. change (123 =? 123)%N with true. cbv iota.
  rewrite <- app_assoc. cbn [app].
  destruct ts as [|t ts]; [congruence|].
  assert (St : solid t). { inversion F as [|? ? ? ? Hm]; subst. destruct Hm as (u & -> & _). apply solid_member. }
  destruct (solid_commas t ts St) as (b & q & E & W & N1 & N2).
  pose proof (H f r (le_n f)) as Hf. rewrite E in Hf |- *. cbn [app] in Hf |- *.
  rewrite js_next_plain by exact W. rewrite (proj2 (N.eqb_neq b 125)) by exact N2.
  now rewrite Hf.
Qed.

Lemma solid_string : forall s, solid (js_string s).
Proof. intros s. unfold js_string. cbn [app]. eexists _, _. split; [reflexivity|]. repeat split; discriminate. Qed.
Lemma solid_object : forall l, solid (js_object l).
Proof. intros s. unfold js_object. cbn [app]. eexists _, _. split; [reflexivity|]. repeat split; discriminate. Qed.
Lemma solid_dec : forall n, solid (dec n).
Proof.
  intros n. destruct (dec_canon n) as [(F & NE & _) _]. destruct (dec n) as [|d t]; [congruence|].
  pose proof (Forall_inv F) as H. unfold digit in H. exists d, t. split; auto. repeat split; try lia.
  unfold js_ws. rewrite !(proj2 (N.eqb_neq _ _)) by lia. reflexivity.
Qed.

Lemma Forall2_map_reads : forall A (f : A -> bytes) (g : A -> json) l,
  (forall x, In x l -> reads (f x) (g x)) -> Forall2 reads (map f l) (map g l).
Proof.
  induction l as [|x l IH]; intros H; cbn [map]; constructor; [apply H; now left|].
  apply IH. intros y Hy. apply H. now right.
Qed.
Lemma Forall_map_solid : forall A (f : A -> bytes) l, (forall x, solid (f x)) -> Forall solid (map f l).
Proof. intros. apply Forall_forall. intros y Hy. apply in_map_iff in Hy as (x & <- & _). auto. Qed.

Definition ast_file (f : file) : json :=
  JObj [(Some (s2b "path"), JArr (map (fun s => JStr (Some s)) (f_path f)));
        (Some (s2b "length"), JNum (Some (f_length f)))].
Definition ast_option {A} (f : A -> json) (o : option A) : json :=
  match o with Some x => f x | None => JNull end.
Definition ast_info (i : info) : json :=
  JObj [(Some (s2b "files"), ast_option (fun l => JArr (map ast_file l)) (i_files i));
        (Some (s2b "length"), ast_option (fun n => JNum (Some n)) (i_length i));
        (Some (s2b "name"), JStr (Some (i_name i)));
        (Some (s2b "piece_length"), JNum (Some (i_piece_length i)));
        (Some (s2b "pieces"), JArr (map (fun n => JNum (Some n)) (i_pieces i)))].

Lemma reads_file : forall f, rust_file f -> reads_all (js_file f) (ast_file f).
Proof.
  intros f [_ Hn].
  apply (reads_object [(s2b "path", JArr (map (fun s => JStr (Some s)) (f_path f)));
                       (s2b "length", JNum (Some (f_length f)))]); [|discriminate].
  constructor; [|constructor; [|constructor]]; eexists; (split; [reflexivity|]); cbn [snd].
  - apply reads_all_reads, reads_array.
    + apply Forall2_map_reads. intros s _. apply reads_string.
    + apply Forall_map_solid. intros. apply solid_string.
  - now apply reads_dec.
Qed.

Lemma reads_option : forall A (f : A -> bytes) (g : A -> json) o,
  (forall x, o = Some x -> reads (f x) (g x)) -> reads (js_option f o) (ast_option g o).
Proof. intros A f g [x|] H; cbn; [auto|exact reads_null]. Qed.

Lemma reads_info : forall i, rust_info i -> reads_all (js_info i) (ast_info i).
Proof.
  intros i (Hf & Hl & _ & Hp & Hb).
  apply (reads_object [(s2b "files", ast_option (fun l => JArr (map ast_file l)) (i_files i));
        (s2b "length", ast_option (fun n => JNum (Some n)) (i_length i));
        (s2b "name", JStr (Some (i_name i)));
        (s2b "piece_length", JNum (Some (i_piece_length i)));
        (s2b "pieces", JArr (map (fun n => JNum (Some n)) (i_pieces i)))]); [|discriminate].
  repeat constructor; eexists; (split; [reflexivity|]); cbn [snd].
  - apply reads_option. intros l E. apply reads_all_reads, reads_array.
    + apply Forall2_map_reads. intros x Hx. apply reads_all_reads, reads_file.
      exact (proj1 (Forall_forall _ _) (Hf l E) x Hx).
    + apply Forall_map_solid. intros. apply solid_object.
  - apply reads_option. intros n E. apply reads_dec. auto.
  - apply reads_string.
  - now apply reads_dec.
  - apply reads_all_reads, reads_array.
    + apply Forall2_map_reads. intros x Hx. apply reads_dec.
      pose proof (proj1 (Forall_forall _ _) Hb x Hx) as H. cbn in H. unfold usize. lia.
    + apply Forall_map_solid. intros. apply solid_dec.
Qed.

Lemma all_some_map : forall A B C (f : A -> option B) (g : C -> A) (h : C -> B) l,
  (forall x, In x l -> f (g x) = Some (h x)) -> all_some f (map g l) = Some (map h l).
Proof.
  induction l as [|x l IH]; intros H; cbn [map all_some]; auto.
  rewrite H by now left. rewrite IH; auto. intros y Hy. apply H. now right.
Qed.

Lemma json_file_ast : forall f, json_file (ast_file f) = Some f.
Proof.
  intros [p n]. unfold ast_file, json_file. cbn [f_path f_length].
  change (keys_read _) with true. cbv iota.
  unfold required. cbn [filter key_is fst].
  change (bytes_eqb (s2b "path") (s2b "path")) with true.
  change (bytes_eqb (s2b "path") (s2b "length")) with false.
  change (bytes_eqb (s2b "length") (s2b "path")) with false.
  change (bytes_eqb (s2b "length") (s2b "length")) with true. cbv iota.
  cbn [as_list as_num]. rewrite (all_some_map _ _ _ as_str (fun s => JStr (Some s)) (fun s => s)).
  - now rewrite map_id.
  - reflexivity.
Qed.

Lemma as_option_ast : forall A (f : json -> option A) (g : A -> json) o,
  (forall x, o = Some x -> f (g x) = Some x /\ g x <> JNull) -> as_option f (ast_option g o) = Some o.
Proof.
  intros A f g [x|] H; cbn [ast_option]; [|reflexivity].
  destruct (H x eq_refl) as [E N]. unfold as_option. destruct (g x) eqn:G; try congruence; now rewrite E.
Qed.

Lemma json_info_ast : forall i, octets (i_pieces i) -> json_info (ast_info i) = Some i.
Proof.
  intros [fs len nm pl ps] Hb. cbn [i_pieces] in Hb. unfold ast_info, json_info.
  cbn [i_files i_length i_name i_piece_length i_pieces].
  change (keys_read _) with true. cbv iota.
  unfold required, optional. cbn [filter key_is fst].
  repeat match goal with |- context [bytes_eqb ?a ?b] =>
    let v := eval vm_compute in (bytes_eqb a b) in change (bytes_eqb a b) with v end. cbv iota.
  rewrite (as_option_ast _ (as_list json_file) (fun l => JArr (map ast_file l))).
  2:{ intros l _. split; [|discriminate]. cbn [as_list].
      rewrite (all_some_map _ _ _ json_file ast_file (fun f => f)); [now rewrite map_id|].
      intros. apply json_file_ast. }
  rewrite (as_option_ast _ as_num (fun n => JNum (Some n))).
  2:{ intros n _. split; [reflexivity|discriminate]. }
  cbn [as_str as_num as_list].
  rewrite (all_some_map _ _ _ json_u8 (fun n => JNum (Some n)) (fun n => n)); [now rewrite map_id|].
  intros x Hx. unfold json_u8. cbn [as_num].
  pose proof (proj1 (Forall_forall _ _) Hb x Hx) as H. cbn in H.
  now rewrite (proj2 (N.ltb_lt x 256)).
Qed.

Lemma json_round_trip : forall i, rust_info i -> info_from_json (js_info i) = Some i.
Proof.
  intros i H. destruct (reads_info i H) as [f Hf]. specialize (Hf []). rewrite app_nil_r in Hf.
  unfold info_from_json. rewrite (js_value_fuel _ _ _ _ Hf).
  - cbn [skip_ws]. apply json_info_ast. apply H.
  - right. intros n. discriminate.
Qed.

(** a proper beginning of the text is not a description *)
Lemma json_info_not_number : forall j i, json_info j = Some i -> not_number j.
Proof. intros j i H n ->. discriminate. Qed.

Lemma json_cut : forall i k, rust_info i -> k < List.length (js_info i) ->
  info_from_json (firstn k (js_info i)) = None.
Proof.
  intros i k H Hk. destruct (info_from_json (firstn k (js_info i))) as [i'|] eqn:E; auto. exfalso.
  unfold info_from_json in E.
  destruct (js_value (js_fuel (firstn k (js_info i))) (firstn k (js_info i))) as [[j r]|] eqn:Ev; [|discriminate].
  destruct (skip_ws r) eqn:Ew; [|discriminate].
  pose proof (json_info_not_number _ _ E) as Hj.
  assert (E1 : js_value (js_fuel (js_info i)) (js_info i) = Some (j, r ++ skipn k (js_info i))).
  { rewrite <- (firstn_skipn k (js_info i)) at 2.
    apply (proj1 (js_stable (js_fuel (firstn k (js_info i))))); auto.
    unfold js_fuel. rewrite firstn_length. lia. }
  destruct (reads_info i H) as [f Hf]. specialize (Hf []). rewrite app_nil_r in Hf.
  rewrite (js_value_fuel _ _ _ _ Hf) in E1 by (right; intros n; discriminate).
  injection E1 as _ E1. symmetry in E1. apply app_eq_nil in E1 as [_ E1].
  assert (L : List.length (skipn k (js_info i)) = 0) by now rewrite E1.
  rewrite skipn_length in L. lia.
Qed.

(** ** The text is UTF-8 *)

Definition one_char (c : bytes) : Prop :=
  (forall x, utf8_valid (c ++ x) = utf8_valid x) /\ (c <> []) /\
  ((exists b, c = [b] /\ (b < 128)%N) \/ Forall (fun b => (128 <= b)%N) c).

Lemma utf8_chars : forall s, utf8_valid s = true -> exists cs, s = List.concat cs /\ Forall one_char cs.
Proof.
  intros s. remember (List.length s) as n eqn:En. revert s En.
  induction n as [n IH] using lt_wf_ind. intros s -> H.
  destruct s as [|a t]; [exists []; split; [reflexivity|constructor]|].
  cbn [utf8_valid] in H. destruct (a <? 128)%N eqn:Ea.
  - destruct (IH (List.length t) ltac:(cbn; lia) t eq_refl H) as (cs & -> & F).
    exists ([a] :: cs). split; [reflexivity|]. constructor; auto. split; [|split].
    + intros x. cbn [app utf8_valid]. now rewrite Ea.
    + discriminate.
    + left. exists a. split; auto. now apply N.ltb_lt.
  - assert (Ha : (128 <= a)%N) by now apply N.ltb_ge.
    destruct t as [|b t2]; [discriminate|]. destruct (in_range 194 223 a) eqn:E2.
    + apply andb_prop in H as [Hb H].
      destruct (IH (List.length t2) ltac:(cbn; lia) t2 eq_refl H) as (cs & -> & F).
      exists ([a; b] :: cs). split; [reflexivity|]. constructor; auto. split; [|split].
      * intros x. cbn [app utf8_valid]. now rewrite Ea, E2, Hb.
      * discriminate.
      * right. unfold is_cont, in_range in Hb. apply andb_prop in Hb as [Hb _]. apply N.leb_le in Hb.
        repeat constructor; auto.
    + destruct t2 as [|c t3]; [discriminate|]. destruct (in_range 224 239 a) eqn:E3.
      * apply andb_prop in H as [H0 H]. apply andb_prop in H0 as [Hb Hc].
        destruct (IH (List.length t3) ltac:(cbn; lia) t3 eq_refl H) as (cs & -> & F).
        exists ([a; b; c] :: cs). split; [reflexivity|]. constructor; auto. split; [|split].
        -- intros x. cbn [app utf8_valid]. now rewrite Ea, E2, E3, Hb, Hc.
        -- discriminate.
        -- right. unfold is_cont, in_range in Hb, Hc. apply andb_prop in Hc as [Hc _]. apply N.leb_le in Hc.
           assert ((128 <= b)%N).
           { destruct (a =? 224)%N; [|destruct (a =? 237)%N]; apply andb_prop in Hb as [Hb _];
             apply N.leb_le in Hb; lia. }
           repeat constructor; auto.
      * destruct t3 as [|d t4]; [discriminate|]. destruct (in_range 240 244 a) eqn:E4; [|discriminate].
        apply andb_prop in H as [H0 H]. apply andb_prop in H0 as [H0 Hd]. apply andb_prop in H0 as [Hb Hc].
        destruct (IH (List.length t4) ltac:(cbn; lia) t4 eq_refl H) as (cs & -> & F).
        exists ([a; b; c; d] :: cs). split; [reflexivity|]. constructor; auto. split; [|split].
        -- intros x. cbn [app utf8_valid]. now rewrite Ea, E2, E3, E4, Hb, Hc, Hd.
        -- discriminate.
        -- right. unfold is_cont, in_range in Hb, Hc, Hd.
           apply andb_prop in Hc as [Hc _]. apply N.leb_le in Hc.
           apply andb_prop in Hd as [Hd _]. apply N.leb_le in Hd.
           assert ((128 <= b)%N).
           { destruct (a =? 240)%N; [|destruct (a =? 244)%N]; apply andb_prop in Hb as [Hb _];
             apply N.leb_le in Hb; lia. }
           repeat constructor; auto.
Qed.

Lemma chars_app : forall cs x, Forall one_char cs -> utf8_valid (List.concat cs ++ x) = utf8_valid x.
Proof.
  induction cs as [|c cs IH]; intros x F; [reflexivity|]. cbn [List.concat]. rewrite <- app_assoc.
  rewrite (proj1 (Forall_inv F)). apply IH. exact (Forall_inv_tail F).
Qed.

Lemma utf8_app : forall a b, utf8_valid a = true -> utf8_valid (a ++ b) = utf8_valid b.
Proof. intros a b H. destruct (utf8_chars a H) as (cs & -> & F). now apply chars_app. Qed.

Lemma ascii_app_utf8 : forall a b, ascii a -> utf8_valid (a ++ b) = utf8_valid b.
Proof.
  induction a as [|x a IH]; intros b H; [reflexivity|]. cbn [app utf8_valid].
  rewrite (proj2 (N.ltb_lt x 128)) by exact (Forall_inv H). apply IH. exact (Forall_inv_tail H).
Qed.
Lemma ascii_text : forall a, ascii a -> utf8_valid a = true.
Proof. intros a H. rewrite <- (app_nil_r a). now rewrite ascii_app_utf8. Qed.

Lemma js_escape_ascii : forall b, (b < 128)%N -> ascii (js_escape b).
Proof.
  intros b H. unfold js_escape, ascii.
  destruct (b =? 34)%N; [repeat constructor; lia|]. destruct (b =? 92)%N; [repeat constructor; lia|].
  destruct (b =? 8)%N; [repeat constructor; lia|]. destruct (b =? 9)%N; [repeat constructor; lia|].
  destruct (b =? 10)%N; [repeat constructor; lia|]. destruct (b =? 12)%N; [repeat constructor; lia|].
  destruct (b =? 13)%N; [repeat constructor; lia|].
  destruct (b <? 32)%N eqn:E; [|repeat constructor; lia].
  apply N.ltb_lt in E. repeat (constructor; [lia|]).
  assert (HL : forall d, (d < 16)%N -> (hex_lower d < 128)%N)
    by (intros d Hd; unfold hex_lower; destruct (d <? 10)%N; lia).
  repeat constructor; apply HL; lia.
Qed.

Lemma js_escape_high : forall b, (128 <= b)%N -> js_escape b = [b].
Proof.
  intros b H. unfold js_escape. rewrite !(proj2 (N.eqb_neq b _)) by lia.
  now rewrite (proj2 (N.ltb_ge b 32)) by lia.
Qed.

Lemma escape_text : forall s x, text s -> utf8_valid (flat_map js_escape s ++ x) = utf8_valid x.
Proof.
  intros s x H. destruct (utf8_chars s H) as (cs & -> & F). clear H.
  induction cs as [|c cs IH]; [reflexivity|]. cbn [List.concat]. rewrite flat_map_app, <- app_assoc.
  specialize (IH (Forall_inv_tail F)). destruct (Forall_inv F) as (V & _ & [(b & -> & Hb)|Hc]).
  - cbn [flat_map]. rewrite app_nil_r. now rewrite ascii_app_utf8 by now apply js_escape_ascii.
  - assert (E : flat_map js_escape c = c).
    { clear - Hc. induction Hc as [|b c Hb Hc IH]; [reflexivity|]. cbn [flat_map].
      now rewrite js_escape_high, IH. }
    rewrite E, V. exact IH.
Qed.

Lemma js_string_text : forall s, text s -> text (js_string s).
Proof.
  intros s H. unfold text, js_string. cbn [app utf8_valid]. change (34 <? 128)%N with true. cbv iota.
  rewrite escape_text by exact H. reflexivity.
Qed.

Lemma app_text : forall a b, text a -> text b -> text (a ++ b).
Proof. unfold text. intros a b Ha Hb. now rewrite utf8_app. Qed.

Lemma dec_text : forall n, text (dec n).
Proof. intros n. apply digits_utf8. apply dec_canon. Qed.

Lemma commas_text : forall l, Forall text l -> text (js_commas l).
Proof.
  induction l as [|x l IH]; intros F; [reflexivity|]. destruct l as [|y l]; [exact (Forall_inv F)|].
  rewrite js_commas_cons. apply app_text; [exact (Forall_inv F)|].
  apply app_text; [reflexivity|]. apply IH. exact (Forall_inv_tail F).
Qed.
Lemma array_text : forall l, Forall text l -> text (js_array l).
Proof. intros l F. unfold js_array. repeat apply app_text; try reflexivity. now apply commas_text. Qed.
Lemma object_text : forall l, Forall text l -> text (js_object l).
Proof. intros l F. unfold js_object. repeat apply app_text; try reflexivity. now apply commas_text. Qed.
Lemma member_text : forall k u, text k -> text u -> text (js_member k u).
Proof. intros k u Hk Hu. unfold js_member. apply app_text; [now apply js_string_text|]. apply app_text; [reflexivity|exact Hu]. Qed.
Lemma map_text : forall A (f : A -> bytes) l, (forall x, In x l -> text (f x)) -> Forall text (map f l).
Proof. intros A f l H. apply Forall_forall. intros y Hy. apply in_map_iff in Hy as (x & <- & Hx). auto. Qed.

Lemma file_text : forall f, rust_file f -> text (js_file f).
Proof.
  intros f [Hp _]. apply object_text. repeat constructor; apply member_text; try reflexivity.
  - apply array_text, map_text. intros s Hs. apply js_string_text.
    exact (proj1 (Forall_forall _ _) Hp s Hs).
  - apply dec_text.
Qed.

Lemma info_text : forall i, rust_info i -> text (js_info i).
Proof.
  intros i (Hf & Hl & Hn & Hp & Hb). apply object_text. repeat constructor; apply member_text; try reflexivity.
  - destruct (i_files i) as [l|]; [|reflexivity]. cbn [js_option]. apply array_text, map_text.
    intros f Hi. apply file_text. exact (proj1 (Forall_forall _ _) (Hf l eq_refl) f Hi).
  - destruct (i_length i); [apply dec_text|reflexivity].
  - now apply js_string_text.
  - apply dec_text.
  - apply array_text, map_text. intros. apply dec_text.
Qed.
