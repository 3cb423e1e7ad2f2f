(** ProofDepth: lemmas for PropDepth *)
From Verif Require Import Base Utf8 SpecBencode ProofBase ModelBencode ProofBencode SpecText ProofText SpecGrammar ProofGrammar ModelDepth SpecDepth.

Scheme deep_mut := Minimality for deep Sort Prop
  with items_deep_mut := Minimality for items_deep Sort Prop
  with entries_deep_mut := Minimality for entries_deep Sort Prop.
Combined Scheme depth_mut from deep_mut, items_deep_mut, entries_deep_mut.

(** ** Either the stack suffices and nothing changes, or it overflows *)
Lemma stack_or : forall f room c,
  (forall cur, decode_s f room c cur = Overflow \/ decode_s f room c cur = Ran (decode_f f c cur)) /\
  (forall cur acc, list_s f room c cur acc = Overflow \/ list_s f room c cur acc = Ran (list_f f c cur acc)) /\
  (forall cur acc, dict_s f room c cur acc = Overflow \/ dict_s f room c cur acc = Ran (dict_f f c cur acc)).
Proof.
  induction f as [|f IH]; intros room c.
  - split; [|split]; intros; [destruct room; auto|auto|auto].
  - split; [|split].
    + intros cur. destruct room as [|r]; [left; reflexivity|]. cbn [decode_s decode_f].
      destruct (IH r c) as (_ & IL & IT).
      destruct (nth_error c cur); auto. destruct (_ =? 105)%N; auto. destruct (_ =? 108)%N; auto.
      destruct (_ =? 100)%N; auto. destruct (_ && _); auto.
    + intros cur acc. destruct (IH room c) as (ID & IL & _). cbn [list_s list_f].
      destruct (get_current_byte c cur); cbn [obind]; auto. destruct (_ =? 101)%N; auto.
      destruct (ID cur) as [E|E]; rewrite E; [left; reflexivity|].
      destruct (decode_f f c cur) as [[[v cur']|e]| |]; cbn [sbind orbind fst snd]; auto.
    + intros cur acc. destruct (IH room c) as (ID & _ & IT). cbn [dict_s dict_f].
      destruct (get_current_byte c cur); cbn [obind]; auto. destruct (_ =? 101)%N; auto.
      destruct (parse_string c cur) as [[[k cur1]|e]| |]; cbn [sbind orbind fst snd]; auto.
      destruct (utf8_valid k); auto.
      destruct (ID cur1) as [E|E]; rewrite E; [left; reflexivity|].
      destruct (decode_f f c cur1) as [[[v cur']|e]| |]; cbn [sbind orbind fst snd]; auto.
Qed.

(** ** The grammar and [decode_f], at any position *)
Lemma rem_mid : forall (pre s : bytes), rem (pre ++ s) (List.length pre) = List.length s.
Proof. intros. unfold rem. rewrite app_length. lia. Qed.

Lemma value_run : forall s v r, value s v r -> forall pre fuel, (2 * List.length s <= fuel)%nat -> (1 <= fuel)%nat ->
  exists x, s = x ++ r /\ decode_f fuel (pre ++ s) (List.length pre) = Ret (Ok (v, List.length (pre ++ x))).
Proof.
  intros s v r V pre fuel L L1. destruct (proj1 read_all _ _ _ V pre) as (f0 & x & E & D). exists x. split; [auto|].
  destruct (decode_bound f0 (pre ++ s)) as (B & _).
  destruct (B (List.length pre)) as [B1 B2]; [rewrite D; congruence|]. rewrite rem_mid, D in *.
  destruct s as [|b t].
  - eapply decode_f_mono; [exact B1|congruence|cbn [List.length] in *; lia].
  - rewrite app_length in B2. eapply decode_f_mono; [apply B2; cbn [List.length]; lia|congruence|lia].
Qed.

Lemma run_value : forall fuel pre s v n, decode_f fuel (pre ++ s) (List.length pre) = Ret (Ok (v, n)) ->
  exists x r, s = x ++ r /\ value s v r /\ n = List.length (pre ++ x).
Proof.
  intros fuel pre s v n H.
  destruct (proj1 (all_total (List.length s)) s (le_n _)) as [(v' & r & V)|[(f & F)|Hg]].
  - destruct (proj1 read_all _ _ _ V pre) as (f0 & x & E & D).
    pose proof (decode_f_mono f0 (Nat.max f0 fuel) _ _ _ D ltac:(congruence) ltac:(lia)) as D'.
    pose proof (decode_f_mono fuel (Nat.max f0 fuel) _ _ _ H ltac:(congruence) ltac:(lia)) as H'.
    rewrite D' in H'. injection H' as <- <-. exists x, r. auto.
  - destruct (proj1 fail_all _ _ F pre) as (f0 & D).
    assert (Nf : result_of (List.length (pre ++ s)) f <> OutOfFuel) by (destruct f; discriminate).
    pose proof (decode_f_mono f0 (Nat.max f0 fuel) _ _ _ D Nf ltac:(lia)) as D'.
    pose proof (decode_f_mono fuel (Nat.max f0 fuel) _ _ _ H ltac:(congruence) ltac:(lia)) as H'.
    rewrite D' in H'. destruct f; discriminate.
  - rewrite (proj1 hang_all _ Hg) in H. discriminate.
Qed.

Lemma string_counted : forall pre s key n, parse_string (pre ++ s) (List.length pre) = Ret (Ok (key, n)) ->
  exists x r, s = x ++ r /\ counted s key r /\ n = List.length (pre ++ x).
Proof.
  intros pre s key n H. destruct (counted_total s) as [(str & r & C & _)|(f & F)].
  - destruct (counted_read _ _ _ C pre) as (x & E & _ & P). rewrite P in H. injection H as <- <-. exists x, r. auto.
  - destruct (counted_failed _ _ F) as (_ & P). rewrite P in H. destruct f; discriminate.
Qed.

Lemma byte_at : forall (pre s : bytes), get_current_byte (pre ++ s) (List.length pre) = match s with b :: _ => Ret b | [] => Panic end.
Proof.
  intros pre s. unfold get_current_byte, index. destruct s; [rewrite head_none|rewrite head_at]; reflexivity.
Qed.

(** ** Overflow is depth *)
Lemma overflow_deep : forall f room,
  (forall pre s, decode_s f room (pre ++ s) (List.length pre) = Overflow -> deep (S room) s) /\
  (forall pre s acc, list_s f room (pre ++ s) (List.length pre) acc = Overflow -> items_deep (S room) s) /\
  (forall pre s acc, dict_s f room (pre ++ s) (List.length pre) acc = Overflow -> entries_deep (S room) s).
Proof.
  induction f as [|f IH]; intros room.
  - split; [|split]; intros pre s; [|discriminate|discriminate]. destruct room; [constructor|discriminate].
  - split; [|split].
    + intros pre s H. destruct room as [|r]; [constructor|]. destruct (IH r) as (_ & IL & IT).
      cbn [decode_s] in H. destruct s as [|b t]; [rewrite head_none in H; discriminate|]. rewrite head_at in H.
      destruct (b =? 105)%N eqn:E1; [discriminate|].
      destruct (b =? 108)%N eqn:E2; [apply N.eqb_eq in E2; subst b|destruct (b =? 100)%N eqn:E3; [apply N.eqb_eq in E3; subst b|]].
      * constructor. apply (IL (pre ++ [108%N]) t []). rewrite <- app_assoc, app_length, Nat.add_1_r. exact H.
      * constructor. apply (IT (pre ++ [100%N]) t []). rewrite <- app_assoc, app_length, Nat.add_1_r. exact H.
      * destruct (_ && _); discriminate.
    + intros pre s acc H. destruct (IH room) as (ID & IL & _). cbn [list_s] in H. rewrite byte_at in H.
      destruct s as [|b t]; [discriminate|]. destruct (b =? 101)%N eqn:E; [discriminate|]. apply N.eqb_neq in E.
      destruct (stack_or f room (pre ++ b :: t)) as (SO & _).
      destruct (SO (List.length pre)) as [O|O].
      * apply id_item; eauto.
      * rewrite O in H. destruct (decode_f f (pre ++ b :: t) (List.length pre)) as [[[v n]|e]| |] eqn:D; try discriminate.
        cbn [sbind fst snd] in H. destruct (run_value _ _ _ _ _ D) as (x & r & Ex & V & ->).
        apply (id_more _ b t v r); auto. apply (IL (pre ++ x) r (acc ++ [v])). rewrite <- app_assoc, <- Ex. exact H.
    + intros pre s acc H. destruct (IH room) as (ID & _ & IT). cbn [dict_s] in H. rewrite byte_at in H.
      destruct s as [|b t]; [discriminate|]. destruct (b =? 101)%N eqn:E; [discriminate|]. apply N.eqb_neq in E.
      destruct (parse_string (pre ++ b :: t) (List.length pre)) as [[[k n]|e]| |] eqn:P; try discriminate.
      cbn [sbind fst snd] in H. destruct (utf8_valid k) eqn:U; [|discriminate]. apply c64_text in U.
      destruct (string_counted _ _ _ _ P) as (x & r & Ex & C & ->).
      rewrite Ex in H. replace (pre ++ x ++ r) with ((pre ++ x) ++ r) in H by (now rewrite app_assoc).
      destruct (stack_or f room ((pre ++ x) ++ r)) as (SO & _).
      destruct (SO (List.length (pre ++ x))) as [O|O].
      * apply (ed_value _ b t k r); eauto.
      * rewrite O in H. destruct (decode_f f ((pre ++ x) ++ r) (List.length (pre ++ x))) as [[[v n]|e]| |] eqn:D; try discriminate.
        cbn [sbind fst snd] in H. destruct (run_value _ _ _ _ _ D) as (y & q & Ey & V & ->).
        apply (ed_more _ b t k r v q); auto. rewrite Ey in H. rewrite (app_assoc (pre ++ x) y q) in H. eauto.
Qed.

(** ** Depth is overflow *)
Lemma deep_overflow :
  (forall k s, deep k s -> forall room, k = S room -> forall pre fuel, (2 * List.length s <= fuel)%nat ->
     decode_s fuel room (pre ++ s) (List.length pre) = Overflow) /\
  (forall k s, items_deep k s -> forall room, k = S room -> forall pre fuel acc, (2 * List.length s + 1 <= fuel)%nat ->
     list_s fuel room (pre ++ s) (List.length pre) acc = Overflow) /\
  (forall k s, entries_deep k s -> forall room, k = S room -> forall pre fuel acc, (2 * List.length s + 1 <= fuel)%nat ->
     dict_s fuel room (pre ++ s) (List.length pre) acc = Overflow).
Proof.
  destruct shrinks as (SV & _ & _).
  apply depth_mut.
  - discriminate.
  - intros s room K pre fuel L. injection K as <-. destruct fuel; reflexivity.
  - intros k s _ IH room K pre fuel L. injection K as ->. cbn [List.length] in L.
    destruct fuel as [|f]; [lia|]. destruct room as [|r]; [reflexivity|]. cbn [decode_s]. rewrite head_at.
    change (pre ++ 108%N :: s) with (pre ++ [108%N] ++ s). rewrite app_assoc.
    replace (S (List.length pre)) with (List.length (pre ++ [108%N])) by (rewrite app_length; cbn; lia).
    cbn [N.eqb Pos.eqb]. apply IH; [reflexivity|lia].
  - intros k s _ IH room K pre fuel L. injection K as ->. cbn [List.length] in L.
    destruct fuel as [|f]; [lia|]. destruct room as [|r]; [reflexivity|]. cbn [decode_s]. rewrite head_at.
    change (pre ++ 100%N :: s) with (pre ++ [100%N] ++ s). rewrite app_assoc.
    replace (S (List.length pre)) with (List.length (pre ++ [100%N])) by (rewrite app_length; cbn; lia).
    cbn [N.eqb Pos.eqb]. apply IH; [reflexivity|lia].
  - intros k b t Nb _ IH room K pre fuel acc L. destruct fuel as [|f]; [lia|]. cbn [list_s]. rewrite byte_at, (proj2 (N.eqb_neq _ _) Nb).
    rewrite (IH room K) by lia. reflexivity.
  - intros k b t v s Nb V _ IH room K pre fuel acc L.
    destruct (SV _ _ _ V) as [[-> _]|Ls]; [now apply IH|].
    destruct fuel as [|f]; [lia|]. cbn [list_s]. rewrite byte_at, (proj2 (N.eqb_neq _ _) Nb).
    destruct (stack_or f room (pre ++ b :: t)) as (SO & _).
    destruct (SO (List.length pre)) as [O|O]; rewrite O; [reflexivity|].
    destruct (value_run _ _ _ V pre f) as (x & Ex & D); [lia|cbn [List.length] in *; lia|]. rewrite D. cbn [sbind fst snd].
    rewrite Ex, app_assoc. apply IH; [auto|lia].
  - intros k b t key s Nb C T _ IH room K pre fuel acc L. destruct fuel as [|f]; [lia|]. cbn [dict_s]. rewrite byte_at, (proj2 (N.eqb_neq _ _) Nb).
    pose proof (counted_shrinks _ _ _ C) as Lc. destruct (counted_read _ _ _ C pre) as (x & Ex & _ & P). rewrite P. cbn [sbind fst snd].
    apply c64_text in T. rewrite T, Ex, app_assoc, (IH room K) by lia. reflexivity.
  - intros k b t key s1 v s2 Nb C T V _ IH room K pre fuel acc L. destruct fuel as [|f]; [lia|]. cbn [dict_s]. rewrite byte_at, (proj2 (N.eqb_neq _ _) Nb).
    pose proof (counted_shrinks _ _ _ C) as Lc. destruct (counted_read _ _ _ C pre) as (x & Ex & _ & P). rewrite P. cbn [sbind fst snd].
    apply c64_text in T. rewrite T, Ex, app_assoc.
    destruct (stack_or f room ((pre ++ x) ++ s1)) as (SO & _).
    destruct (SO (List.length (pre ++ x))) as [O|O]; rewrite O; [reflexivity|].
    destruct (value_run _ _ _ V (pre ++ x) f) as (y & Ey & D); [lia|cbn [List.length] in *; lia|]. rewrite D. cbn [sbind fst snd].
    rewrite Ey, app_assoc. apply IH; [auto|]. destruct (SV _ _ _ V) as [[-> _]|Ls]; lia.
Qed.

Lemma c71_overflow : forall room c, decode_on room c = Overflow <-> deep (S room) c.
Proof.
  intros room c. unfold decode_on. split; intros H.
  - apply (proj1 (overflow_deep _ room) [] c H).
  - apply (proj1 deep_overflow _ _ H room eq_refl []). lia.
Qed.

Lemma c71_suffices : forall room c, ~ deep (S room) c -> decode_on room c = Ran (decode c).
Proof.
  intros room c N. unfold decode_on. destruct (stack_or (2 * List.length c + 2) room c) as (SO & _).
  destruct (SO 0%nat) as [O|O]; [|exact O]. elim N. now apply c71_overflow.
Qed.

(** ** Depth and length *)
Lemma deep_length :
  (forall k s, deep k s -> (k <= 1 \/ k <= List.length s)%nat) /\
  (forall k s, items_deep k s -> (k <= List.length s)%nat) /\
  (forall k s, entries_deep k s -> (k <= List.length s)%nat).
Proof.
  destruct shrinks as (SV & _ & _).
  apply depth_mut; intros; cbn [List.length] in *; try lia.
  - apply SV in H0. destruct H0 as [[-> _]|?]; cbn [List.length] in *; lia.
  - apply counted_shrinks in H0. cbn [List.length] in H0. lia.
  - apply counted_shrinks in H0. cbn [List.length] in H0. apply SV in H2. destruct H2 as [[-> _]|?]; cbn [List.length] in *; lia.
Qed.

Lemma c71_length : forall room c, (1 <= room)%nat -> (List.length c <= room)%nat -> decode_on room c = Ran (decode c).
Proof.
  intros room c L1 L. apply c71_suffices. intros D. apply deep_length in D. lia.
Qed.

(** ** Canonical texts *)
Lemma tail_eq : forall (a b x y : bytes), a ++ x = b ++ y -> List.length a = List.length b -> x = y.
Proof. induction a as [|h a IH]; intros [|g b] x y E L; cbn in *; try lia; auto. injection E as _ E. eapply IH; eauto. Qed.

Lemma benc_value : forall v rest, decodable text v -> exists v', value (benc v ++ rest) v' rest.
Proof.
  intros v rest D. pose proof (decode_f_benc v D (List.length (benc v)) [] rest (le_n _)) as H. cbn [app List.length] in H.
  destruct (run_value _ [] _ _ _ H) as (x & r & E & V & L). cbn [app] in L.
  assert (rest = r) as -> by (apply (tail_eq _ _ _ _ E); lia). eauto.
Qed.

Lemma bstr_counted : forall s rest, (N.of_nat (List.length s) < 2 ^ 64)%N -> counted (bstr s ++ rest) s rest.
Proof.
  intros s rest L. pose proof (parse_string_app [] s rest L) as H. cbn [app List.length] in H.
  destruct (string_counted [] _ _ _ H) as (x & r & E & C & Lx). cbn [app] in Lx.
  assert (rest = r) as -> by (apply (tail_eq _ _ _ _ E); lia). auto.
Qed.

Lemma counted_once : forall s k r k' r', counted s k r -> counted s k' r' -> k = k' /\ r = r'.
Proof.
  intros s k r k' r' C C'. destruct (counted_read _ _ _ C []) as (x & E & _ & P). destruct (counted_read _ _ _ C' []) as (x' & E' & _ & P').
  rewrite P in P'. injection P' as <- L. cbn [app] in L. split; [auto|]. apply (tail_eq x x' r r'); congruence.
Qed.

Lemma bval_ind' (P : bval -> Prop) : (forall n, P (BInt n)) -> (forall s, P (BStr s)) ->
  (forall l, Forall P l -> P (BList l)) -> (forall d, Forall (fun kv => P (snd kv)) d -> P (BDict d)) -> forall v, P v.
Proof.
  intros HI HS HL HD. fix F 1. intros [n|s|l|d].
  - apply HI.
  - apply HS.
  - apply HL. induction l as [|x l IH]; constructor; [apply F|exact IH].
  - apply HD. induction d as [|x d IH]; constructor; [apply F|exact IH].
Qed.

Lemma deep_le : (forall k s, deep k s -> forall j, (j <= k)%nat -> deep j s) /\
  (forall k s, items_deep k s -> forall j, (j <= k)%nat -> items_deep j s) /\
  (forall k s, entries_deep k s -> forall j, (j <= k)%nat -> entries_deep j s).
Proof.
  apply depth_mut.
  - intros s [|j] L; [constructor|lia].
  - intros s [|[|j]] L; [constructor|constructor|lia].
  - intros k s _ IH [|j] L; [constructor|]. constructor. apply IH. lia.
  - intros k s _ IH [|j] L; [constructor|]. constructor. apply IH. lia.
  - intros k b t Nb _ IH j L. apply id_item; auto.
  - intros k b t v s Nb V _ IH j L. apply (id_more j b t v s); auto.
  - intros k b t key s Nb C T _ IH j L. apply (ed_value j b t key s); auto.
  - intros k b t key s1 v s2 Nb C T V _ IH j L. apply (ed_more j b t key s1 v s2); auto.
Qed.

Lemma benc_cons : forall v rest, decodable text v -> exists b t, benc v ++ rest = b :: t /\ b <> 101%N.
Proof. intros v rest D. destruct (benc_head _ _ D) as (b & t & E & N). rewrite E. exists b, (t ++ rest). auto. Qed.
Lemma bstr_cons : forall s rest, exists b t, bstr s ++ rest = b :: t /\ b <> 101%N.
Proof. intros s rest. destruct (bstr_head s) as (b & t & E & D & _). rewrite E. exists b, (t ++ rest). unfold digit in D. split; [auto|lia]. Qed.

Lemma nesting_deep : forall v, decodable text v -> forall rest, deep (nesting v) (benc v ++ rest).
Proof.
  apply (bval_ind' (fun v => decodable text v -> forall rest, deep (nesting v) (benc v ++ rest))).
  - intros n _ rest. constructor.
  - intros s _ rest. constructor.
  - intros l IH D rest. inversion D as [| |l' Dl El|]; subst l'. cbn [nesting benc]. change (s2b "l") with [108%N]. change (s2b "e") with [101%N].
    cbn [app]. destruct l as [|v0 l0]; [constructor|]. constructor. remember (v0 :: l0) as l eqn:El. assert (Nl : l <> []) by (rewrite El; discriminate). clear El v0 l0 D.
    induction l as [|v l IHl]; [easy|]. inversion IH; subst. inversion Dl; subst.
    cbn [map List.concat]. rewrite <- !app_assoc. destruct (benc_cons v (List.concat (map benc l) ++ [101%N] ++ rest)) as (b & t & E & Nb); [auto|].
    change (list_max (nesting v :: map nesting l)) with (Nat.max (nesting v) (list_max (map nesting l))).
    destruct (Nat.max_spec (nesting v) (list_max (map nesting l))) as [[Lm ->]|[Lm ->]].
    + destruct l as [|v1 l1]; [cbn in Lm; lia|].
      destruct (benc_value v (List.concat (map benc (v1 :: l1)) ++ [101%N] ++ rest)) as (v' & V); [auto|]. rewrite E in V |- *.
      apply (id_more _ b t v' _ Nb V). rewrite app_assoc. apply IHl; auto. discriminate.
    + rewrite E. apply id_item; [auto|]. rewrite <- E. auto.
  - intros d IH D rest. inversion D as [| | |d' Dk Dd Ed]; subst d'. cbn [nesting benc]. change (s2b "d") with [100%N]. change (s2b "e") with [101%N].
    cbn [app]. destruct d as [|v0 l0]; [constructor|]. constructor. remember (v0 :: l0) as d eqn:Ed. assert (Nd : d <> []) by (rewrite Ed; discriminate). clear Ed v0 l0 D.
    induction d as [|[k v] d IHd]; [easy|]. inversion IH; subst. inversion Dd; subst. inversion Dk as [|? ? [Tk Lk] ?]; subst. cbn [fst snd] in *.
    cbn [map List.concat fst snd]. rewrite <- !app_assoc. destruct (bstr_cons k (benc v ++ List.concat (map (fun kv => bstr (fst kv) ++ benc (snd kv)) d) ++ [101%N] ++ rest)) as (b & t & E & Nb).
    pose proof (bstr_counted k (benc v ++ List.concat (map (fun kv => bstr (fst kv) ++ benc (snd kv)) d) ++ [101%N] ++ rest) Lk) as C. rewrite E in C |- *.
    assert (T : exists ns, text_of ns k) by (now apply c64_text).
    change (list_max (nesting v :: map (fun kv => nesting (snd kv)) d)) with (Nat.max (nesting v) (list_max (map (fun kv => nesting (snd kv)) d))).
    destruct (Nat.max_spec (nesting v) (list_max (map (fun kv => nesting (snd kv)) d))) as [[Lm ->]|[Lm ->]].
    + destruct d as [|v1 l1]; [cbn in Lm; lia|].
      destruct (benc_value v (List.concat (map (fun kv => bstr (fst kv) ++ benc (snd kv)) (v1 :: l1)) ++ [101%N] ++ rest)) as (v' & V); [auto|].
      apply (ed_more _ b t k _ v' _ Nb C T V). rewrite app_assoc. apply IHd; auto. discriminate.
    + apply (ed_value _ b t k _ Nb C T). auto.
Qed.

Lemma deep_nesting : forall v, decodable text v -> forall k rest, deep k (benc v ++ rest) -> (k <= nesting v)%nat.
Proof.
  assert (N1 : forall v, (1 <= nesting v)%nat) by (intros [| | |]; cbn [nesting]; lia).
  apply (bval_ind' (fun v => decodable text v -> forall k rest, deep k (benc v ++ rest) -> (k <= nesting v)%nat)).
  - intros n _ k rest H. cbn [nesting benc] in *. change (s2b "i") with [105%N] in H. cbn [app] in H. inversion H; lia.
  - intros s D k rest H. cbn [nesting benc] in *. inversion D; subst.
    destruct (bstr_head s) as (b & t & E & Db & _). rewrite E in H. unfold digit in Db. cbn [app] in H. inversion H; subst; lia.
  - intros l IH D k rest H. inversion D as [| |l' Dl El|]; subst l'. cbn [nesting benc] in *. change (s2b "l") with [108%N] in H. change (s2b "e") with [101%N] in H.
    cbn [app] in H. inversion H as [| |k' s Hi|k' s Hi]; subst; try lia; try discriminate. clear H D. rewrite <- app_assoc in Hi.
    apply le_n_S. revert Hi. induction l as [|v l IHl]; intros Hi.
    { cbn [map List.concat app] in Hi. inversion Hi; congruence. }
    inversion IH; subst. inversion Dl; subst. cbn [map List.concat] in Hi. rewrite <- !app_assoc in Hi.
    change (list_max (map nesting (v :: l))) with (Nat.max (nesting v) (list_max (map nesting l))).
    inversion Hi as [k0 b t Nb Hd Ek Es|k0 b t v' s' Nb V Hm Ek Es]; subst.
    + rewrite Es in Hd. apply H1 in Hd; [lia|auto].
    + rewrite Es in V. destruct (benc_value v (List.concat (map benc l) ++ [101%N] ++ rest)) as (v2 & V2); [auto|].
      destruct (c66_unambiguous _ _ _ _ _ V V2) as [_ ->]. apply IHl in Hm; auto. lia.
  - intros d IH D k rest H. inversion D as [| | |d' Dk Dd Ed]; subst d'. cbn [nesting benc] in *. change (s2b "d") with [100%N] in H. change (s2b "e") with [101%N] in H.
    cbn [app] in H. inversion H as [| |k' s Hi|k' s Hi]; subst; try lia; try discriminate. clear H D. rewrite <- app_assoc in Hi.
    apply le_n_S. revert Hi. induction d as [|[key v] d IHd]; intros Hi.
    { cbn [map List.concat app] in Hi. inversion Hi; congruence. }
    inversion IH; subst. inversion Dd; subst. inversion Dk as [|? ? [Tk Lk] ?]; subst. cbn [fst snd] in *. cbn [map List.concat fst snd] in Hi. rewrite <- !app_assoc in Hi.
    change (list_max (map (fun kv => nesting (snd kv)) ((key, v) :: d))) with (Nat.max (nesting v) (list_max (map (fun kv => nesting (snd kv)) d))).
    pose proof (bstr_counted key (benc v ++ List.concat (map (fun kv => bstr (fst kv) ++ benc (snd kv)) d) ++ [101%N] ++ rest) Lk) as C.
    inversion Hi as [k0 b t key' s' Nb C' T' Hd Ek Es|k0 b t key' s1 v' s2 Nb C' T' V Hm Ek Es]; subst.
    + rewrite Es in C'. destruct (counted_once _ _ _ _ _ C C') as [<- <-]. apply H1 in Hd; [lia|auto].
    + rewrite Es in C'. destruct (counted_once _ _ _ _ _ C C') as [<- <-].
      destruct (benc_value v (List.concat (map (fun kv => bstr (fst kv) ++ benc (snd kv)) d) ++ [101%N] ++ rest)) as (v2 & V2); [auto|].
      destruct (c66_unambiguous _ _ _ _ _ V V2) as [_ ->]. apply IHd in Hm; auto. lia.
Qed.

Lemma c71_nesting : forall v rest room, decodable text v -> decode_on room (benc v ++ rest) = Overflow <-> (room < nesting v)%nat.
Proof.
  intros v rest room D. rewrite c71_overflow. split; intros H.
  - apply deep_nesting in H; [lia|auto].
  - apply (proj1 deep_le _ _ (nesting_deep v D rest)). lia.
Qed.

Lemma nested_facts : forall n, decodable text (nested_lists n) /\ nesting (nested_lists n) = S n /\ List.length (benc (nested_lists n)) = (2 * n + 2)%nat.
Proof.
  induction n as [|n (D & N & L)]; cbn [nested_lists].
  - split; [constructor; constructor|split; reflexivity].
  - split; [constructor; constructor; [auto|constructor]|]. cbn [nesting benc map List.concat]. rewrite N. split; [cbn; lia|].
    rewrite !app_length, L. cbn [List.length s2b]. cbn. lia.
Qed.

Lemma c71_refuted : forall room, exists c v, List.length c = (2 * room + 2)%nat /\ decode c = Ret (Ok (v, List.length c)) /\
  decode_on room c = Overflow.
Proof.
  intros room. destruct (nested_facts room) as (D & N & L). exists (benc (nested_lists room)).
  destruct (benc_value (nested_lists room) [] D) as (v & V). rewrite app_nil_r in V. exists v. split; [exact L|split].
  - apply c66_accepts. exists []. split; [exact V|cbn; lia].
  - pose proof (c71_nesting (nested_lists room) [] room D) as H. rewrite app_nil_r in H. apply H. lia.
Qed.

From Verif Require Import ModelMessages ModelTorrent.
Lemma c71_message : forall room, exists c m, List.length c = (2 * room + 2)%nat /\
  (forall id, extension_from_bytes (id :: c) = Ret (Ok (m id)) /\ ex_data (m id) = []) /\ decode_on room c = Overflow.
Proof.
  intros room. destruct (c71_refuted room) as (c & v & L & D & O). exists c.
  eexists. split; [exact L|split; [|exact O]]. intros id. unfold extension_from_bytes.
  change (slice_from (id :: c) 1) with (slice_from ([id] ++ c) 1). unfold slice_from.
  replace (1 <=? List.length ([id] ++ c))%nat with true by reflexivity. cbn [obind skipn app]. rewrite D. cbn [obind].
  unfold index. cbn [nth_error obind]. rewrite Nat.add_1_r. cbn [List.length]. rewrite Nat.leb_refl. cbn [obind].
  split; [reflexivity|]. cbn [ex_data skipn]. apply skipn_all.
Qed.
