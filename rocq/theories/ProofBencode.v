(** ProofBencode: decoder lemmas *)
From Coq Require Import Permutation.
From Verif Require Import Base Utf8 SpecBencode ProofBase ModelBencode.

Lemma two64_pow : (2 ^ 64)%N = two64.
Proof. reflexivity. Qed.

(** ** Induction on values *)
Section bval_ind.
  Variable P : bval -> Prop.
  Hypothesis Hi : forall n, P (BInt n).
  Hypothesis Hs : forall s, P (BStr s).
  Hypothesis Hl : forall l, Forall P l -> P (BList l).
  Hypothesis Hd : forall d, Forall (fun kv => P (snd kv)) d -> P (BDict d).
  Fixpoint bval_ind' (v : bval) : P v :=
    match v with
    | BInt n => Hi n
    | BStr s => Hs s
    | BList l => Hl l ((fix go l := match l return Forall P l with
                                    | [] => Forall_nil _
                                    | x :: t => Forall_cons x (bval_ind' x) (go t)
                                    end) l)
    | BDict d => Hd d ((fix go d := match d return Forall (fun kv => P (snd kv)) d with
                                    | [] => Forall_nil _
                                    | x :: t => Forall_cons x (bval_ind' (snd x)) (go t)
                                    end) d)
    end.
End bval_ind.

(** Value decoded from a spec value: entries with a repeated key overwrite. *)
Fixpoint mi (v : bval) : metainfo :=
  match v with
  | BInt n => MInteger n
  | BStr s => MString s
  | BList l => MList (map mi l)
  | BDict d => MDictionary (fold_left (fun acc kv => hm_insert acc (fst kv) (snd kv))
                              (map (fun kv => (fst kv, mi (snd kv))) d) [])
  end.

(** ** Scanning digits *)
Lemma scan_digits_app : forall ds b rest cur, Forall digit ds -> is_digit b = false ->
  scan_digits (ds ++ b :: rest) cur = Ret (cur + List.length ds)%nat.
Proof.
  induction ds as [|d t IH]; intros b rest cur H Hb; cbn [app scan_digits List.length].
  - rewrite Hb. f_equal. lia.
  - inversion H; subst. rewrite (proj1 (digit_is_digit d)) by auto. rewrite IH by auto. f_equal. lia.
Qed.

Lemma scan_digits_all : forall ds cur, Forall digit ds -> scan_digits ds cur = Panic.
Proof.
  induction ds as [|d t IH]; intros cur H; cbn [scan_digits]; auto.
  inversion H; subst. rewrite (proj1 (digit_is_digit d)) by auto. auto.
Qed.

Lemma scan_digits_inv : forall rest cur e, scan_digits rest cur = Ret e ->
  exists ds b t, rest = ds ++ b :: t /\ Forall digit ds /\ is_digit b = false /\
                 e = (cur + List.length ds)%nat.
Proof.
  induction rest as [|x t IH]; intros cur e H; cbn [scan_digits] in H; [congruence|].
  destruct (is_digit x) eqn:E.
  - destruct (IH _ _ H) as (ds & b & t' & -> & F & Hb & ->).
    exists (x :: ds), b, t'. split; [reflexivity|]. split; [|split; auto].
    + constructor; auto. now apply digit_is_digit.
    + cbn. lia.
  - injection H as <-. exists [], x, t. split; [reflexivity|]. split; auto.
Qed.

Lemma get_digits_app : forall pre ds b rest, Forall digit ds -> is_digit b = false ->
  get_consecutive_digits (pre ++ ds ++ b :: rest) (List.length pre)
  = match parse_usize ds with
    | Some v => Ret (Ok (v, (List.length pre + List.length ds)%nat))
    | None => Ret (Err (BadNumberDecode ds))
    end.
Proof.
  intros pre ds b rest F Hb. unfold get_consecutive_digits.
  rewrite skipn_app_len, scan_digits_app by auto. cbn [obind].
  rewrite slice_app by auto. cbn [obind]. rewrite digits_utf8 by auto.
  destruct (parse_usize ds); reflexivity.
Qed.

Lemma parse_string_app : forall pre s rest, (lenN s < two64)%N ->
  parse_string (pre ++ bstr s ++ rest) (List.length pre)
  = Ret (Ok (s, (List.length pre + List.length (bstr s))%nat)).
Proof.
  intros pre s rest H. unfold parse_string, bstr.
  change (s2b ":") with [58%N]. rewrite <- !app_assoc. cbn [app].
  rewrite get_digits_app by (auto using decimal_digits).
  rewrite parse_usize_decimal by auto. cbn [orbind].
  set (ds := decimal _).
  rewrite (proj2 (N.leb_le _ _)).
  2:{ rewrite !lenN_app, lenN_cons, lenN_app. unfold lenN. lia. }
  replace (pre ++ ds ++ 58%N :: s ++ rest) with ((pre ++ ds ++ [58%N]) ++ s ++ rest)
    by (rewrite <- !app_assoc; reflexivity).
  rewrite slice_app.
  - cbn [obind]. do 3 f_equal. rewrite !app_length. cbn [List.length]. lia.
  - rewrite !app_length. cbn [List.length]. lia.
  - rewrite !app_length. cbn [List.length]. lia.
Qed.

Lemma parse_integer_app : forall pre n rest, (n < two64)%N ->
  parse_integer (pre ++ benc (BInt n) ++ rest) (List.length pre)
  = Ret (Ok (MInteger n, (List.length pre + List.length (benc (BInt n)))%nat)).
Proof.
  intros pre n rest H. unfold parse_integer. cbn [benc].
  change (s2b "i") with [105%N]. change (s2b "e") with [101%N].
  replace (pre ++ ([105%N] ++ decimal n ++ [101%N]) ++ rest)
    with ((pre ++ [105%N]) ++ decimal n ++ 101%N :: rest)
    by (rewrite <- !app_assoc; reflexivity).
  replace (S (List.length pre)) with (List.length (pre ++ [105%N]))
    by (rewrite app_length; cbn; lia).
  rewrite get_digits_app by auto using decimal_digits.
  rewrite parse_usize_decimal by auto. cbn [orbind]. do 3 f_equal.
  rewrite !app_length. cbn [List.length]. lia.
Qed.

Lemma nth_error_mid : forall (pre : bytes) b rest, nth_error (pre ++ b :: rest) (List.length pre) = Some b.
Proof. intros. apply nth_error_app_mid. Qed.

Lemma benc_head : forall txt v, decodable txt v -> exists b t, benc v = b :: t /\ b <> 101%N.
Proof.
  intros txt v H. destruct v as [n|s|l|d]; cbn [benc].
  - eexists _, _. split; [reflexivity|]. cbv. congruence.
  - unfold bstr. destruct (decimal_head (N.of_nat (List.length s))) as (d & t & E & D & _).
    rewrite E. eexists _, _. split; [reflexivity|]. unfold digit in D. lia.
  - eexists _, _. split; [reflexivity|]. cbv. congruence.
  - eexists _, _. split; [reflexivity|]. cbv. congruence.
Qed.

Lemma bstr_head : forall s, exists b t, bstr s = b :: t /\ digit b /\ (s <> [] -> b <> 48%N).
Proof.
  intros s. unfold bstr. destruct (decimal_head (N.of_nat (List.length s))) as (d & t & E & D & Z).
  rewrite E. exists d, (t ++ s2b ":" ++ s). split; [reflexivity|]. split; auto.
  intros Hs. apply Z. destruct s; [congruence|cbn; lia].
Qed.

Lemma benc_len_pos : forall txt v, decodable txt v -> (2 <= List.length (benc v))%nat.
Proof.
  intros txt v H. destruct v as [n|s|l|d]; cbn [benc]; unfold bstr; rewrite ?app_length;
    change (List.length (s2b "i")) with 1%nat; change (List.length (s2b "e")) with 1%nat;
    change (List.length (s2b "l")) with 1%nat; change (List.length (s2b "d")) with 1%nat;
    change (List.length (s2b ":")) with 1%nat; try lia.
  inversion H; subst. destruct s; [congruence|]. cbn [List.length]. lia.
Qed.

Definition text (s : bytes) : Prop := utf8_valid s = true.

(** ** C01: decoding a canonical encoding *)
Lemma decode_f_benc : forall v, decodable text v -> forall fuel pre suf,
  (List.length (benc v) <= fuel)%nat ->
  decode_f fuel (pre ++ benc v ++ suf) (List.length pre)
  = Ret (Ok (mi v, (List.length pre + List.length (benc v))%nat)).
Proof.
  induction v as [n|s|l IH|d IH] using bval_ind'; intros D fuel pre suf Hf.
  - destruct fuel; [cbn in Hf; lia|]. cbn [decode_f].
    change (pre ++ benc (BInt n) ++ suf) with (pre ++ 105%N :: (decimal n ++ s2b "e") ++ suf) at 1.
    rewrite nth_error_mid. cbn [N.eqb Pos.eqb]. inversion D; subst. now apply parse_integer_app.
  - inversion D; subst. cbn [benc] in *. destruct (bstr_head s) as (b & t & E & Db & Nz).
    destruct fuel; [rewrite E in Hf; cbn in Hf; lia|]. cbn [decode_f].
    rewrite E at 1. cbn [app]. rewrite nth_error_mid.
    specialize (Nz H0). unfold digit in Db.
    rewrite (proj2 (N.eqb_neq _ _)) by lia. rewrite (proj2 (N.eqb_neq _ _)) by lia.
    rewrite (proj2 (N.eqb_neq _ _)) by lia.
    rewrite (proj2 (N.leb_le _ _)) by lia. rewrite (proj2 (N.leb_le _ _)) by lia. cbn [andb].
    rewrite parse_string_app by auto. reflexivity.
  - inversion D; subst. cbn [benc] in *. change (s2b "l") with [108%N] in *.
    change (s2b "e") with [101%N] in *.
    destruct fuel; [cbn in Hf; lia|]. cbn [decode_f].
    cbn [app]. rewrite nth_error_mid. cbn [N.eqb Pos.eqb].
    assert (L : forall l, Forall (fun v => decodable text v -> forall fuel pre suf,
        (List.length (benc v) <= fuel)%nat ->
        decode_f fuel (pre ++ benc v ++ suf) (List.length pre)
        = Ret (Ok (mi v, (List.length pre + List.length (benc v))%nat))) l ->
      Forall (decodable text) l ->
      forall fuel pre suf acc, (List.length (List.concat (map benc l)) + 1 <= fuel)%nat ->
      list_f fuel (pre ++ List.concat (map benc l) ++ 101%N :: suf) (List.length pre) acc
      = Ret (Ok (MList (acc ++ map mi l),
                 (List.length pre + List.length (List.concat (map benc l)) + 1)%nat))).
    { clear. induction l as [|v l IHl]; intros IH D fuel pre suf acc Hf.
      - cbn [map List.concat app List.length] in *. destruct fuel; [lia|]. cbn [list_f].
        unfold get_current_byte, index. rewrite nth_error_mid. cbn [obind].
        rewrite N.eqb_refl, app_nil_r. do 3 f_equal. lia.
      - inversion IH; inversion D; subst. cbn [map List.concat] in *. rewrite app_length in *.
        destruct fuel; [lia|]. cbn [list_f]. unfold get_current_byte, index.
        destruct (benc_head _ _ H5) as (b & t & E & Nb).
        pose proof (benc_len_pos _ _ H5) as Lp.
        rewrite <- app_assoc. rewrite E at 1. cbn [app]. rewrite nth_error_mid. cbn [obind].
        rewrite (proj2 (N.eqb_neq _ _)) by auto. rewrite H1 by (auto; lia). cbn [orbind].
        replace (pre ++ benc v ++ List.concat (map benc l) ++ 101%N :: suf)
          with ((pre ++ benc v) ++ List.concat (map benc l) ++ 101%N :: suf)
          by now rewrite <- !app_assoc.
        rewrite <- app_length. rewrite IHl by (auto; lia).
        rewrite <- app_assoc. cbn [app]. do 3 f_equal. rewrite app_length. lia. }
    replace (pre ++ 108%N :: (List.concat (map benc l) ++ [101%N]) ++ suf)
      with ((pre ++ [108%N]) ++ List.concat (map benc l) ++ 101%N :: suf)
      by (rewrite <- ?app_assoc; reflexivity).
    replace (S (List.length pre)) with (List.length (pre ++ [108%N])) by (rewrite app_length; cbn; lia).
    rewrite L; auto.
    + cbn [app mi]. do 3 f_equal. rewrite !app_length. cbn [List.length]. rewrite app_length. cbn [List.length]. lia.
    + cbn [app List.length] in Hf. rewrite app_length in Hf. cbn [List.length] in Hf. lia.
  - inversion D; subst. cbn [benc] in *. change (s2b "d") with [100%N] in *.
    change (s2b "e") with [101%N] in *.
    destruct fuel; [cbn in Hf; lia|]. cbn [decode_f].
    cbn [app]. rewrite nth_error_mid. cbn [N.eqb Pos.eqb].
    set (enc := fun kv : bytes * bval => bstr (fst kv) ++ benc (snd kv)) in *.
    assert (L : forall d, Forall (fun kv => decodable text (snd kv) -> forall fuel pre suf,
        (List.length (benc (snd kv)) <= fuel)%nat ->
        decode_f fuel (pre ++ benc (snd kv) ++ suf) (List.length pre)
        = Ret (Ok (mi (snd kv), (List.length pre + List.length (benc (snd kv)))%nat))) d ->
      Forall (fun kv => text (fst kv) /\ (N.of_nat (List.length (fst kv)) < 2 ^ 64)%N) d ->
      Forall (fun kv => decodable text (snd kv)) d ->
      forall fuel pre suf acc, (List.length (List.concat (map enc d)) + 1 <= fuel)%nat ->
      dict_f fuel (pre ++ List.concat (map enc d) ++ 101%N :: suf) (List.length pre) acc
      = Ret (Ok (MDictionary (fold_left (fun acc kv => hm_insert acc (fst kv) (snd kv))
                              (map (fun kv => (fst kv, mi (snd kv))) d) acc),
                 (List.length pre + List.length (List.concat (map enc d)) + 1)%nat))).
    { clear. induction d as [|[k v] d IHd]; intros IH T D fuel pre suf acc Hf.
      - cbn [map List.concat app List.length fold_left] in *. destruct fuel; [lia|]. cbn [dict_f].
        unfold get_current_byte, index. rewrite nth_error_mid. cbn [obind].
        rewrite N.eqb_refl. do 3 f_equal. lia.
      - inversion IH; inversion T; inversion D; subst. cbn [map List.concat fold_left fst snd] in *.
        destruct H5 as [Tk Lk].
        change (enc (k, v)) with (bstr k ++ benc v) in *. rewrite !app_length in *.
        destruct fuel; [lia|]. cbn [dict_f]. unfold get_current_byte, index.
        destruct (bstr_head k) as (b & t & E & Nb & _).
        pose proof (benc_len_pos _ _ H9) as Lp.
        assert (Lk2 : (1 <= List.length (bstr k))%nat) by (rewrite E; cbn; lia).
        rewrite E at 1. rewrite <- !app_assoc. cbn [app]. rewrite nth_error_mid. cbn [obind].
        unfold digit in Nb. rewrite (proj2 (N.eqb_neq _ _)) by lia.
        rewrite parse_string_app by auto. cbn [orbind]. rewrite Tk.
        replace (pre ++ bstr k ++ benc v ++ List.concat (map enc d) ++ 101%N :: suf)
          with ((pre ++ bstr k) ++ benc v ++ List.concat (map enc d) ++ 101%N :: suf)
          by now rewrite <- !app_assoc.
        rewrite <- app_length. rewrite H1 by (auto; lia). cbn [orbind].
        replace ((pre ++ bstr k) ++ benc v ++ List.concat (map enc d) ++ 101%N :: suf)
          with ((pre ++ bstr k ++ benc v) ++ List.concat (map enc d) ++ 101%N :: suf)
          by now rewrite <- !app_assoc.
        replace (List.length (pre ++ bstr k) + List.length (benc v))%nat with (List.length (pre ++ bstr k ++ benc v)) by (rewrite !app_length; lia). rewrite IHd by (auto; lia).
        do 3 f_equal. rewrite !app_length. lia. }
    replace (pre ++ 100%N :: (List.concat (map enc d) ++ [101%N]) ++ suf)
      with ((pre ++ [100%N]) ++ List.concat (map enc d) ++ 101%N :: suf)
      by (rewrite <- ?app_assoc; reflexivity).
    replace (S (List.length pre)) with (List.length (pre ++ [100%N])) by (rewrite app_length; cbn; lia).
    rewrite L; auto.
    + cbn [app mi]. do 3 f_equal. rewrite !app_length. cbn [List.length]. rewrite app_length. cbn [List.length]. lia.
    + cbn [app List.length] in Hf. rewrite app_length in Hf. cbn [List.length] in Hf. lia.
Qed.

Lemma decode_benc : forall v suf, decodable text v ->
  decode (benc v ++ suf) = Ret (Ok (mi v, List.length (benc v))).
Proof.
  intros v suf D. unfold decode, decode_at.
  pose proof (decode_f_benc v D (2 * List.length (benc v ++ suf) + 2) [] suf) as H.
  cbn [app List.length] in H. apply H. rewrite app_length. lia.
Qed.

(** ** association lists *)
Lemma hm_insert_new : forall V (m : hmap V) k v, ~ In k (map fst m) -> hm_insert m k v = m ++ [(k, v)].
Proof.
  induction m as [|[k' v'] t IH]; intros k v H; cbn [hm_insert app]; auto.
  destruct (bytes_eqb k k') eqn:E.
  - apply bytes_eqb_eq in E. subst. exfalso. apply H. cbn. auto.
  - f_equal. apply IH. intros Hi. apply H. cbn. auto.
Qed.

Lemma fold_insert_nodup : forall V (es acc : hmap V), NoDup (map fst (acc ++ es)) ->
  fold_left (fun acc kv => hm_insert acc (fst kv) (snd kv)) es acc = acc ++ es.
Proof.
  induction es as [|[k v] es IH]; intros acc H; cbn [fold_left]; [now rewrite app_nil_r|].
  cbn [fst snd].
  rewrite hm_insert_new.
  - rewrite IH; rewrite <- app_assoc; auto.
  - rewrite map_app in H. cbn in H. apply NoDup_remove_2 in H. rewrite in_app_iff in H. tauto.
Qed.

Lemma mi_as_metainfo : forall v, distinct_keys v -> mi v = as_metainfo v.
Proof.
  induction v as [n|s|l IH|d IH] using bval_ind'; intros D; cbn [mi as_metainfo]; auto.
  - inversion D; subst. f_equal. apply map_ext_in. intros a Ha.
    rewrite Forall_forall in *. auto.
  - inversion D; subst. f_equal. rewrite fold_insert_nodup.
    + cbn [app]. apply map_ext_in. intros [k v] Ha. cbn [fst snd].
      rewrite Forall_forall in *. f_equal. specialize (IH _ Ha). cbn in IH. apply IH.
      apply (H1 _ Ha).
    + cbn [app]. rewrite map_map. cbn [fst]. auto.
Qed.

Lemma hm_get_insert : forall V (m : hmap V) k v k',
  hm_get (hm_insert m k v) k' = if bytes_eqb k' k then Some v else hm_get m k'.
Proof.
  induction m as [|[k0 v0] t IH]; intros k v k'; cbn [hm_insert hm_get].
  - destruct (bytes_eqb k' k); reflexivity.
  - destruct (bytes_eqb k k0) eqn:E; cbn [hm_get].
    + apply bytes_eqb_eq in E. subst k0. destruct (bytes_eqb k' k); reflexivity.
    + destruct (bytes_eqb k' k0) eqn:E2.
      * apply bytes_eqb_eq in E2. subst k0.
        destruct (bytes_eqb k' k) eqn:E3; auto. apply bytes_eqb_eq in E3. subst.
        rewrite bytes_eqb_refl in E. congruence.
      * apply IH.
Qed.

Lemma find_rev_cons : forall A (f : A -> bool) l x,
  find f (rev (x :: l)) = match find f (rev l) with Some y => Some y | None => if f x then Some x else None end.
Proof.
  intros A f l x. cbn [rev]. induction (rev l) as [|y t IH]; cbn [app find].
  - reflexivity.
  - destruct (f y); auto.
Qed.

Lemma last_binding_cons : forall V k0 (v0 : V) es k,
  last_binding ((k0, v0) :: es) k
  = match last_binding es k with
    | Some v => Some v
    | None => if list_eq_dec N.eq_dec k0 k then Some v0 else None
    end.
Proof.
  intros V k0 v0 es k. unfold last_binding.
  rewrite (find_rev_cons (bytes * V)). cbn [fst snd].
  destruct (find _ (rev es)) as [[k1 v1]|]; cbn [option_map]; auto.
  destruct (list_eq_dec N.eq_dec k0 k); reflexivity.
Qed.

Lemma hm_get_fold : forall V (es acc : hmap V) k,
  hm_get (fold_left (fun acc kv => hm_insert acc (fst kv) (snd kv)) es acc) k
  = match last_binding es k with Some v => Some v | None => hm_get acc k end.
Proof.
  induction es as [|[k0 v0] es IH]; intros acc k; cbn [fold_left]; [reflexivity|].
  rewrite IH, hm_get_insert, last_binding_cons. cbn [fst snd].
  destruct (last_binding es k); auto.
  destruct (list_eq_dec N.eq_dec k0 k) as [->|Ne].
  - rewrite bytes_eqb_refl. reflexivity.
  - rewrite (proj2 (bytes_eqb_neq k k0)) by congruence. reflexivity.
Qed.

(** ** fuel monotonicity *)
Lemma fuel_mono1 : forall f c,
  (forall cur r, decode_f f c cur = r -> r <> OutOfFuel -> decode_f (S f) c cur = r) /\
  (forall cur acc r, list_f f c cur acc = r -> r <> OutOfFuel -> list_f (S f) c cur acc = r) /\
  (forall cur acc r, dict_f f c cur acc = r -> r <> OutOfFuel -> dict_f (S f) c cur acc = r).
Proof.
  induction f as [|f IH]; intros c.
  - repeat split; intros; cbn in *; congruence.
  - destruct (IH c) as (ID & IL & IT). repeat split.
    + intros cur r H Hr. cbn [decode_f] in H. remember (S f) as f'. cbn [decode_f]. subst f'.
      destruct (nth_error c cur); auto.
      destruct (_ =? 105)%N; auto.
      destruct (_ =? 108)%N; [apply IL; auto|].
      destruct (_ =? 100)%N; [apply IT; auto|]. auto.
    + intros cur acc r H Hr. cbn [list_f] in H. remember (S f) as f'. cbn [list_f]. subst f'.
      destruct (get_current_byte c cur); cbn [obind] in *; auto.
      destruct (_ =? 101)%N; auto.
      destruct (decode_f f c cur) as [[[v cur']|e]| |] eqn:E.
      * rewrite (ID _ _ E) by congruence. cbn [orbind] in *. apply IL; auto.
      * rewrite (ID _ _ E) by congruence. auto.
      * rewrite (ID _ _ E) by congruence. auto.
      * cbn in H. congruence.
    + intros cur acc r H Hr. cbn [dict_f] in H. remember (S f) as f'. cbn [dict_f]. subst f'.
      destruct (get_current_byte c cur); cbn [obind] in *; auto.
      destruct (_ =? 101)%N; auto.
      destruct (parse_string c cur) as [[[k cur1]|e]| |]; cbn [orbind] in *; auto.
      destruct (utf8_valid k); auto.
      destruct (decode_f f c cur1) as [[[v cur']|e]| |] eqn:E.
      * rewrite (ID _ _ E) by congruence. cbn [orbind] in *. apply IT; auto.
      * rewrite (ID _ _ E) by congruence. auto.
      * rewrite (ID _ _ E) by congruence. auto.
      * cbn in H. congruence.
Qed.

Lemma decode_f_mono : forall f f' c cur r, decode_f f c cur = r -> r <> OutOfFuel -> (f <= f')%nat ->
  decode_f f' c cur = r.
Proof.
  intros f f' c cur r H Hr L. induction L; auto. now apply (proj1 (fuel_mono1 m c)).
Qed.
Lemma list_f_mono : forall f f' c cur acc r, list_f f c cur acc = r -> r <> OutOfFuel -> (f <= f')%nat ->
  list_f f' c cur acc = r.
Proof.
  intros f f' c cur acc r H Hr L. induction L; auto. now apply (proj1 (proj2 (fuel_mono1 m c))).
Qed.
Lemma dict_f_mono : forall f f' c cur acc r, dict_f f c cur acc = r -> r <> OutOfFuel -> (f <= f')%nat ->
  dict_f f' c cur acc = r.
Proof.
  intros f f' c cur acc r H Hr L. induction L; auto. now apply (proj2 (proj2 (fuel_mono1 m c))).
Qed.

(** ** inversion of the number and string parsers *)
Lemma get_digits_inv : forall c cur v e, get_consecutive_digits c cur = Ret (Ok (v, e)) ->
  exists pre ds b t, c = pre ++ ds ++ b :: t /\ List.length pre = cur /\ Forall digit ds /\
    is_digit b = false /\ parse_usize ds = Some v /\ e = (cur + List.length ds)%nat.
Proof.
  intros c cur v e H. unfold get_consecutive_digits in H.
  destruct (scan_digits (skipn cur c) cur) as [e0| |] eqn:S; cbn [obind] in H; try congruence.
  apply scan_digits_inv in S as (ds & b & t & Ec & F & Hb & ->).
  assert (L : (cur <= List.length c)%nat).
  { destruct (Nat.le_gt_cases cur (List.length c)); auto.
    rewrite skipn_all2 in Ec by lia. destruct ds; cbn in Ec; congruence. }
  assert (C : c = firstn cur c ++ ds ++ b :: t) by (rewrite <- Ec; now rewrite firstn_skipn).
  assert (Lp : List.length (firstn cur c) = cur) by (rewrite firstn_length; lia).
  exists (firstn cur c), ds, b, t.
  pose proof (get_digits_app (firstn cur c) ds b t F Hb) as G.
  rewrite <- C, Lp in G.
  rewrite C in H at 1. rewrite slice_app in H by auto. cbn [obind] in H.
  rewrite digits_utf8 in H by auto.
  destruct (parse_usize ds); [|congruence]. injection H as <- <-.
  split; [exact C|]. auto 10.
Qed.

Lemma parse_string_app' : forall pre ds b s t, Forall digit ds -> is_digit b = false ->
  parse_usize ds = Some (lenN s) ->
  parse_string (pre ++ ds ++ b :: s ++ t) (List.length pre)
  = Ret (Ok (s, (List.length pre + List.length ds + 1 + List.length s)%nat)).
Proof.
  intros pre ds b s t F Hb P. unfold parse_string. rewrite get_digits_app by auto. rewrite P.
  cbn [orbind].
  rewrite (proj2 (N.leb_le _ _)).
  2:{ rewrite !lenN_app, lenN_cons, lenN_app. unfold lenN. lia. }
  replace (pre ++ ds ++ b :: s ++ t) with ((pre ++ ds ++ [b]) ++ s ++ t)
    by (rewrite <- !app_assoc; reflexivity).
  rewrite slice_app.
  - cbn [obind]. do 3 f_equal. unfold lenN. lia.
  - rewrite !app_length. cbn [List.length]. lia.
  - rewrite !app_length. cbn [List.length]. unfold lenN. lia.
Qed.

Lemma parse_string_inv : forall c cur s e, parse_string c cur = Ret (Ok (s, e)) ->
  exists pre ds b t, c = pre ++ ds ++ b :: s ++ t /\ List.length pre = cur /\ Forall digit ds /\
    is_digit b = false /\ parse_usize ds = Some (lenN s) /\
    e = (cur + List.length ds + 1 + List.length s)%nat.
Proof.
  intros c cur s e H. unfold parse_string in H.
  destruct (get_consecutive_digits c cur) as [[[n e0]|]| |] eqn:G; cbn [orbind] in H; try congruence.
  apply get_digits_inv in G as (pre & ds & b & t & -> & Lp & F & Hb & P & ->).
  destruct (_ <=? _)%N eqn:Le in H; [|congruence].
  apply N.leb_le in Le. rewrite !lenN_app, lenN_cons in Le.
  assert (Lt : (N.to_nat n <= List.length t)%nat) by (unfold lenN in *; lia).
  replace (pre ++ ds ++ b :: t)
    with ((pre ++ ds ++ [b]) ++ firstn (N.to_nat n) t ++ skipn (N.to_nat n) t) in H
    by (rewrite firstn_skipn, <- !app_assoc; reflexivity).
  rewrite slice_app in H.
  2:{ rewrite !app_length. cbn [List.length]. lia. }
  2:{ rewrite !app_length, firstn_length. cbn [List.length]. lia. }
  cbn [obind] in H. injection H as <- <-.
  exists pre, ds, b, (skipn (N.to_nat n) t). rewrite firstn_skipn.
  assert (Ln : lenN (firstn (N.to_nat n) t) = n) by (unfold lenN; rewrite firstn_length; lia).
  rewrite Ln. unfold lenN in Ln. split; [reflexivity|]. repeat (split; [assumption|]). lia.
Qed.

(** ** locality *)
Definition agree (n : nat) (c c' : bytes) : Prop := firstn n c' = firstn n c.

Lemma agree_le : forall n m c c', agree n c c' -> (m <= n)%nat -> agree m c c'.
Proof.
  intros n m c c' H L. unfold agree in *.
  now rewrite <- (Nat.min_l m n L), <- !firstn_firstn, H.
Qed.

Lemma nth_error_firstn_lt : forall A n (l : list A) k, (k < n)%nat -> nth_error (firstn n l) k = nth_error l k.
Proof.
  induction n; intros l k H; [lia|]. destruct l; cbn; [destruct k; auto|].
  destruct k; cbn; auto. apply IHn. lia.
Qed.

Lemma agree_nth : forall n c c' k, agree n c c' -> (k < n)%nat -> nth_error c' k = nth_error c k.
Proof.
  intros n c c' k H L. rewrite <- (nth_error_firstn_lt _ n c'), <- (nth_error_firstn_lt _ n c) by auto.
  now rewrite H.
Qed.

Lemma agree_app : forall p t c', agree (List.length p) (p ++ t) c' -> exists t', c' = p ++ t'.
Proof.
  intros p t c' H. unfold agree in H. rewrite firstn_app_len in H.
  exists (skipn (List.length p) c'). rewrite <- H at 1. now rewrite firstn_skipn.
Qed.

Lemma get_digits_local : forall c cur v e c', get_consecutive_digits c cur = Ret (Ok (v, e)) ->
  (cur <= e < List.length c)%nat /\
  (agree (S e) c c' -> get_consecutive_digits c' cur = Ret (Ok (v, e))).
Proof.
  intros c cur v e c' H. apply get_digits_inv in H as (pre & ds & b & t & -> & <- & F & Hb & P & ->).
  split; [rewrite !app_length; cbn [List.length]; lia|].
  intros A. replace (pre ++ ds ++ b :: t) with ((pre ++ ds ++ [b]) ++ t) in A
    by (rewrite <- !app_assoc; reflexivity).
  replace (S (List.length pre + List.length ds)) with (List.length (pre ++ ds ++ [b])) in A
    by (rewrite !app_length; cbn [List.length]; lia).
  apply agree_app in A as [t' ->]. rewrite <- !app_assoc. cbn [app].
  rewrite get_digits_app by auto. now rewrite P.
Qed.

Lemma parse_string_local : forall c cur s e c', parse_string c cur = Ret (Ok (s, e)) ->
  (cur < e <= List.length c)%nat /\
  (agree e c c' -> parse_string c' cur = Ret (Ok (s, e))).
Proof.
  intros c cur s e c' H. apply parse_string_inv in H as (pre & ds & b & t & -> & <- & F & Hb & P & ->).
  split; [rewrite !app_length; cbn [List.length]; rewrite app_length; lia|].
  intros A. replace (pre ++ ds ++ b :: s ++ t) with ((pre ++ ds ++ b :: s) ++ t) in A
    by (rewrite <- !app_assoc; cbn [app]; reflexivity).
  replace (List.length pre + List.length ds + 1 + List.length s)%nat
    with (List.length (pre ++ ds ++ b :: s)) in A
    by (rewrite !app_length; cbn [List.length]; lia).
  apply agree_app in A as [t' ->]. rewrite <- !app_assoc. cbn [app].
  now rewrite parse_string_app' by auto.
Qed.

Lemma decode_local : forall f c c',
  (forall cur v cur', decode_f f c cur = Ret (Ok (v, cur')) ->
     (cur <= cur')%nat /\ (cur < cur' -> cur' <= List.length c)%nat /\
     (agree (Nat.max cur' (S cur)) c c' -> decode_f f c' cur = Ret (Ok (v, cur')))) /\
  (forall cur acc v cur', list_f f c cur acc = Ret (Ok (v, cur')) ->
     (cur < cur' <= List.length c)%nat /\ (agree cur' c c' -> list_f f c' cur acc = Ret (Ok (v, cur')))) /\
  (forall cur acc v cur', dict_f f c cur acc = Ret (Ok (v, cur')) ->
     (cur < cur' <= List.length c)%nat /\ (agree cur' c c' -> dict_f f c' cur acc = Ret (Ok (v, cur')))).
Proof.
  induction f as [|f IH]; intros c c'.
  { repeat split; intros; cbn in *; congruence. }
  destruct (IH c c') as (ID & IL & IT). split; [|split].
  - intros cur v cur' H. cbn [decode_f] in H |- *.
    destruct (nth_error c cur) as [b|] eqn:Eb.
    2:{ injection H as <- <-. split; [lia|]. split; [lia|].
        intros A. rewrite (agree_nth _ _ _ cur A) by lia. now rewrite Eb. }
    assert (Lc : (cur < List.length c)%nat) by (apply nth_error_Some; congruence).
    destruct (b =? 105)%N eqn:E1.
    { unfold parse_integer in *.
      destruct (get_consecutive_digits c (S cur)) as [[[n e]|]| |] eqn:G; cbn [orbind] in H; try congruence.
      injection H as <- <-. apply (get_digits_local _ _ _ _ c') in G as [Le A].
      split; [lia|]. split; [lia|]. intros Ag.
      rewrite (agree_nth _ _ _ cur Ag) by lia. rewrite Eb, E1.
      rewrite A; [reflexivity|]. eapply agree_le; [exact Ag|lia]. }
    destruct (b =? 108)%N eqn:E2.
    { apply IL in H as [Le A]. split; [lia|]. split; [lia|]. intros Ag.
      rewrite (agree_nth _ _ _ cur Ag) by lia. rewrite Eb, E1, E2.
      apply A. eapply agree_le; [exact Ag|lia]. }
    destruct (b =? 100)%N eqn:E3.
    { apply IT in H as [Le A]. split; [lia|]. split; [lia|]. intros Ag.
      rewrite (agree_nth _ _ _ cur Ag) by lia. rewrite Eb, E1, E2, E3.
      apply A. eapply agree_le; [exact Ag|lia]. }
    destruct ((49 <=? b)%N && (b <=? 57)%N) eqn:E4.
    { destruct (parse_string c cur) as [[[s e]|]| |] eqn:G; cbn [orbind] in H; try congruence.
      injection H as <- <-. apply (parse_string_local _ _ _ _ c') in G as [Le A].
      split; [lia|]. split; [lia|]. intros Ag.
      rewrite (agree_nth _ _ _ cur Ag) by lia. rewrite Eb, E1, E2, E3, E4.
      rewrite A; [reflexivity|]. eapply agree_le; [exact Ag|lia]. }
    injection H as <- <-. split; [lia|]. split; [lia|]. intros Ag.
    rewrite (agree_nth _ _ _ cur Ag) by lia. now rewrite Eb, E1, E2, E3, E4.
  - intros cur acc v cur' H. cbn [list_f] in H |- *. unfold get_current_byte, index in *.
    destruct (nth_error c cur) as [b|] eqn:Eb; cbn [obind] in H; [|congruence].
    assert (Lc : (cur < List.length c)%nat) by (apply nth_error_Some; congruence).
    destruct (b =? 101)%N eqn:E.
    + injection H as <- <-. split; [lia|]. intros Ag.
      rewrite (agree_nth _ _ _ cur Ag) by lia. rewrite Eb. cbn [obind]. now rewrite E.
    + destruct (decode_f f c cur) as [[[v1 cur1]|]| |] eqn:G; cbn [orbind] in H; try congruence.
      apply ID in G as (L1 & L2 & A1). apply IL in H as (L3 & A2).
      split; [lia|]. intros Ag.
      rewrite (agree_nth _ _ _ cur Ag) by lia. rewrite Eb. cbn [obind]. rewrite E.
      rewrite A1 by (eapply agree_le; [exact Ag|lia]). cbn [orbind]. apply A2. auto.
  - intros cur acc v cur' H. cbn [dict_f] in H |- *. unfold get_current_byte, index in *.
    destruct (nth_error c cur) as [b|] eqn:Eb; cbn [obind] in H; [|congruence].
    assert (Lc : (cur < List.length c)%nat) by (apply nth_error_Some; congruence).
    destruct (b =? 101)%N eqn:E.
    + injection H as <- <-. split; [lia|]. intros Ag.
      rewrite (agree_nth _ _ _ cur Ag) by lia. rewrite Eb. cbn [obind]. now rewrite E.
    + destruct (parse_string c cur) as [[[k cur0]|]| |] eqn:P; cbn [orbind] in H; try congruence.
      destruct (utf8_valid k) eqn:U; [|congruence].
      destruct (decode_f f c cur0) as [[[v1 cur1]|]| |] eqn:G; cbn [orbind] in H; try congruence.
      apply ID in G as (L1 & L2 & A1). apply IT in H as (L3 & A2).
      apply (parse_string_local _ _ _ _ c') in P as (L4 & A3).
      split; [lia|]. intros Ag.
      rewrite (agree_nth _ _ _ cur Ag) by lia. rewrite Eb. cbn [obind]. rewrite E.
      rewrite A3 by (eapply agree_le; [exact Ag|lia]). cbn [orbind]. rewrite U.
      rewrite A1 by (eapply agree_le; [exact Ag|lia]). cbn [orbind]. apply A2. auto.
Qed.

(** ** C03: the fuel bound *)
Definition rem (c : bytes) (cur : nat) : nat := (List.length c - cur)%nat.

Lemma list_f_stuck : forall c cur v b, nth_error c cur = Some b -> b <> 101%N ->
  forall f0, decode_f f0 c cur = Ret (Ok (v, cur)) ->
  forall f acc, list_f f c cur acc = OutOfFuel.
Proof.
  intros c cur v b Eb Nb f0 D f. induction f as [|f IH]; intros acc; [reflexivity|].
  cbn [list_f]. unfold get_current_byte, index. rewrite Eb. cbn [obind].
  rewrite (proj2 (N.eqb_neq _ _)) by auto.
  destruct (decode_f f c cur) as [r| |] eqn:E.
  - assert (r = Ok (v, cur)).
    { pose proof (decode_f_mono f (Nat.max f f0) _ _ _ E ltac:(congruence) ltac:(lia)).
      pose proof (decode_f_mono f0 (Nat.max f f0) _ _ _ D ltac:(congruence) ltac:(lia)). congruence. }
    subst r. cbn [orbind]. apply IH.
  - exfalso.
    pose proof (decode_f_mono f (Nat.max f f0) _ _ _ E ltac:(congruence) ltac:(lia)).
    pose proof (decode_f_mono f0 (Nat.max f f0) _ _ _ D ltac:(congruence) ltac:(lia)). congruence.
  - reflexivity.
Qed.

Lemma decode_bound : forall f c,
  (forall cur, decode_f f c cur <> OutOfFuel ->
     decode_f (2 * rem c cur + 1) c cur = decode_f f c cur /\
     ((cur < List.length c)%nat -> decode_f (2 * rem c cur) c cur = decode_f f c cur)) /\
  (forall cur acc, list_f f c cur acc <> OutOfFuel ->
     list_f (2 * rem c cur + 1) c cur acc = list_f f c cur acc) /\
  (forall cur acc, dict_f f c cur acc <> OutOfFuel ->
     dict_f (2 * rem c cur + 1) c cur acc = dict_f f c cur acc).
Proof.
  induction f as [|f IH]; intros c.
  { repeat split; intros; cbn in *; congruence. }
  destruct (IH c) as (ID & IL & IT).
  split; [|split].
  - assert (Main : forall cur, decode_f (S f) c cur <> OutOfFuel -> (cur < List.length c)%nat ->
        decode_f (2 * rem c cur) c cur = decode_f (S f) c cur).
    { intros cur H L. unfold rem.
      destruct (2 * (List.length c - cur))%nat as [|g] eqn:Eg; [lia|].
      cbn [decode_f] in *. destruct (nth_error c cur) as [b|] eqn:Eb; auto.
      destruct (b =? 105)%N; auto.
      destruct (b =? 108)%N; [|destruct (b =? 100)%N; auto].
      - replace g with (2 * rem c (S cur) + 1)%nat by (unfold rem; lia). now apply IL.
      - replace g with (2 * rem c (S cur) + 1)%nat by (unfold rem; lia). now apply IT. }
    intros cur H. split.
    + destruct (Nat.lt_ge_cases cur (List.length c)) as [L|L].
      * pose proof (Main cur H L) as M. rewrite <- M in H.
        rewrite <- M. eapply decode_f_mono; [reflexivity|auto|lia].
      * replace (2 * rem c cur + 1)%nat with 1%nat by (unfold rem; lia).
        cbn [decode_f] in *. now rewrite (proj2 (nth_error_None c cur)) by lia.
    + auto.
  - intros cur acc H. rewrite Nat.add_1_r. cbn [list_f] in H |- *.
    unfold get_current_byte, index in *.
    destruct (nth_error c cur) as [b|] eqn:Eb; cbn [obind] in *; auto.
    assert (L : (cur < List.length c)%nat) by (apply nth_error_Some; congruence).
    destruct (b =? 101)%N eqn:E; auto.
    destruct (decode_f f c cur) as [[[v cur']|e]| |] eqn:D; cbn [orbind] in H.
    + destruct (ID cur ltac:(congruence)) as [_ D2]. rewrite D2, D by lia. cbn [orbind].
      pose proof (proj1 (decode_local f c c) _ _ _ D) as (L1 & L2 & _).
      destruct (Nat.eq_dec cur cur') as [<-|Ne].
      * exfalso. apply H. eapply list_f_stuck; eauto. apply N.eqb_neq. auto.
      * rewrite <- (IL cur') by auto. symmetry. 
        symmetry. eapply list_f_mono; [reflexivity| |unfold rem; lia].
        rewrite IL by auto. auto.
    + destruct (ID cur ltac:(congruence)) as [_ D2]. now rewrite D2, D by lia.
    + destruct (ID cur ltac:(congruence)) as [_ D2]. now rewrite D2, D by lia.
    + cbn in H. congruence.
  - intros cur acc H. rewrite Nat.add_1_r. cbn [dict_f] in H |- *.
    unfold get_current_byte, index in *.
    destruct (nth_error c cur) as [b|] eqn:Eb; cbn [obind] in *; auto.
    assert (L : (cur < List.length c)%nat) by (apply nth_error_Some; congruence).
    destruct (b =? 101)%N eqn:E; auto.
    destruct (parse_string c cur) as [[[k cur1]|e]| |] eqn:P; cbn [orbind] in *; auto.
    destruct (utf8_valid k); auto.
    apply (parse_string_local _ _ _ _ c) in P as (Lp & _).
    destruct (decode_f f c cur1) as [[[v cur']|e]| |] eqn:D; cbn [orbind] in H.
    + destruct (ID cur1 ltac:(congruence)) as [D2 _].
      assert (D3 : decode_f (2 * rem c cur) c cur1 = Ret (Ok (v, cur'))).
      { rewrite D in D2. eapply decode_f_mono; [exact D2|congruence|unfold rem; lia]. }
      rewrite D3. cbn [orbind].
      pose proof (proj1 (decode_local f c c) _ _ _ D) as (L1 & L2 & _).
      rewrite <- (IT cur') by auto.
      eapply dict_f_mono; [reflexivity| |unfold rem; lia].
      rewrite IT by auto. auto.
    + destruct (ID cur1 ltac:(congruence)) as [D2 _]. rewrite D in D2.
      erewrite decode_f_mono; [|exact D2|congruence|unfold rem; lia]. reflexivity.
    + destruct (ID cur1 ltac:(congruence)) as [D2 _]. rewrite D in D2.
      erewrite decode_f_mono; [|exact D2|congruence|unfold rem; lia]. reflexivity.
    + cbn in H. congruence.
Qed.

Lemma decode_decided : forall c,
  decode c = OutOfFuel <-> (forall fuel, decode_f fuel c 0 = OutOfFuel).
Proof.
  intros c. split; intros H.
  - intros fuel. destruct (decode_f fuel c 0) as [r| |] eqn:E; auto; exfalso.
    + destruct (decode_bound fuel c) as (B & _). destruct (B 0%nat ltac:(congruence)) as [B1 _].
      rewrite E in B1. unfold decode, decode_at in H.
      rewrite (decode_f_mono _ (2 * List.length c + 2) _ _ _ B1) in H; try congruence.
      unfold rem. lia.
    + destruct (decode_bound fuel c) as (B & _). destruct (B 0%nat ltac:(congruence)) as [B1 _].
      rewrite E in B1. unfold decode, decode_at in H.
      rewrite (decode_f_mono _ (2 * List.length c + 2) _ _ _ B1) in H; try congruence.
      unfold rem. lia.
  - apply H.
Qed.

(** every sufficiently fuelled run agrees with [decode] *)
Lemma decode_any_fuel : forall fuel c r, decode_f fuel c 0 = r -> r <> OutOfFuel -> decode c = r.
Proof.
  intros fuel c r E Hr. destruct (decode_bound fuel c) as (B & _). subst r.
  destruct (B 0%nat Hr) as [B1 _]. unfold decode, decode_at.
  eapply decode_f_mono; [exact B1|auto|unfold rem; lia].
Qed.

Lemma decode_locality : forall c v n, decode c = Ret (Ok (v, n)) ->
  (n <= List.length c)%nat /\
  ((0 < n)%nat -> forall suf, decode (firstn n c ++ suf) = Ret (Ok (v, n))).
Proof.
  intros c v n H. split.
  - unfold decode, decode_at in H.
    destruct (proj1 (decode_local _ c c) _ _ _ H) as (L1 & L2 & _).
    destruct (Nat.eq_dec n 0); lia.
  - intros Hn suf. unfold decode, decode_at in H.
    destruct (proj1 (decode_local _ c (firstn n c ++ suf)) _ _ _ H) as (L1 & L2 & A).
    eapply decode_any_fuel; [apply A|congruence].
    unfold agree. replace (Nat.max n 1) with n by lia.
    rewrite firstn_app, firstn_firstn, Nat.min_id. rewrite firstn_length.
    replace (n - Nat.min n (List.length c))%nat with 0%nat by lia. cbn. apply app_nil_r.
Qed.

(** a list whose next item starts with an unrecognised byte *)
Definition item_start (b : N) : Prop :=
  b = 105%N \/ b = 108%N \/ b = 100%N \/ (49 <= b <= 57)%N.

Lemma list_f_items : forall l fuel pre rest acc, Forall (decodable text) l ->
  (List.length (List.concat (map benc l)) < fuel)%nat ->
  exists fuel', list_f fuel (pre ++ List.concat (map benc l) ++ rest) (List.length pre) acc
  = list_f fuel' (pre ++ List.concat (map benc l) ++ rest)
      (List.length pre + List.length (List.concat (map benc l))) (acc ++ map mi l).
Proof.
  induction l as [|v l IH]; intros fuel pre rest acc D Hf.
  - exists fuel. cbn. now rewrite app_nil_r, Nat.add_0_r.
  - inversion D; subst. cbn [map List.concat] in *. rewrite app_length in *.
    pose proof (benc_len_pos _ _ H1) as Lp.
    destruct fuel as [|fuel]; [lia|].
    destruct (IH fuel (pre ++ benc v) rest (acc ++ [mi v]) H2 ltac:(lia)) as [f' E'].
    exists f'. cbn [list_f]. unfold get_current_byte, index.
    destruct (benc_head _ _ H1) as (b & t & E & Nb).
    rewrite <- !app_assoc. rewrite E at 1. cbn [app]. rewrite nth_error_mid. cbn [obind].
    rewrite (proj2 (N.eqb_neq _ _)) by auto. rewrite decode_f_benc by (auto; lia). cbn [orbind].
    rewrite <- !app_assoc, !app_length in E'. cbn [app] in E'. rewrite E'.
    now rewrite Nat.add_assoc.
Qed.

Lemma list_hangs : forall l b rest fuel, Forall (decodable text) l -> b <> 101%N -> ~ item_start b ->
  decode_f fuel (108%N :: List.concat (map benc l) ++ b :: rest) 0 = OutOfFuel.
Proof.
  intros l b rest fuel D Nb Ni. set (c := 108%N :: List.concat (map benc l) ++ b :: rest).
  assert (Stuck : decode_f 1 c (1 + List.length (List.concat (map benc l)))
                  = Ret (Ok (MNothing, (1 + List.length (List.concat (map benc l)))%nat))).
  { cbn [decode_f]. unfold c.
    change (108%N :: List.concat (map benc l) ++ b :: rest)
      with ((108%N :: List.concat (map benc l)) ++ b :: rest).
    change (1 + List.length (List.concat (map benc l)))%nat
      with (List.length (108%N :: List.concat (map benc l))).
    rewrite nth_error_mid. unfold item_start in Ni.
    destruct (b =? 105)%N eqn:E1; [apply N.eqb_eq in E1; tauto|].
    destruct (b =? 108)%N eqn:E2; [apply N.eqb_eq in E2; tauto|].
    destruct (b =? 100)%N eqn:E3; [apply N.eqb_eq in E3; tauto|].
    destruct ((49 <=? b)%N && (b <=? 57)%N) eqn:E4; auto.
    exfalso. apply Ni. lia. }
  assert (Nth : nth_error c (1 + List.length (List.concat (map benc l))) = Some b).
  { unfold c. cbn [Nat.add nth_error]. apply nth_error_mid. }
  assert (Big : forall fuel, (S (S (List.length (List.concat (map benc l)))) <= fuel)%nat ->
    decode_f fuel c 0 = OutOfFuel).
  { clear fuel. intros fuel L. destruct fuel as [|fuel]; [lia|]. cbn [decode_f nth_error c]. cbn [N.eqb Pos.eqb].
    destruct (list_f_items l fuel [108%N] (b :: rest) [] D ltac:(lia)) as [f' E].
    cbn [app List.length] in E. fold c in E |- *. rewrite E.
    eapply list_f_stuck; eauto. }
  destruct (decode_f fuel c 0) as [r| |] eqn:E; auto; exfalso;
  pose proof (decode_f_mono fuel (fuel + S (S (List.length (List.concat (map benc l))))) _ _ _ E
                ltac:(congruence) ltac:(lia)) as M;
  rewrite Big in M by lia; congruence.
Qed.

Lemma get_digits_finish : forall c cur, get_consecutive_digits c cur <> OutOfFuel.
Proof.
  intros c cur. unfold get_consecutive_digits, slice.
  assert (SD : forall l k, scan_digits l k <> OutOfFuel)
    by (induction l; intros; cbn; [congruence|destruct (is_digit a); auto; congruence]).
  specialize (SD (skipn cur c) cur).
  destruct (scan_digits (skipn cur c) cur); cbn [obind]; try congruence.
  destruct (_ && _); cbn [obind]; try congruence.
  destruct (utf8_valid _); try congruence. destruct (parse_usize _); congruence.
Qed.

Lemma parsers_finish : forall c cur, parse_integer c cur <> OutOfFuel /\ parse_string c cur <> OutOfFuel.
Proof.
  intros c cur. unfold parse_integer, parse_string. split.
  - pose proof (get_digits_finish c (S cur)).
    destruct (get_consecutive_digits c (S cur)) as [[[]|]| |]; cbn [orbind]; congruence.
  - pose proof (get_digits_finish c cur).
    destruct (get_consecutive_digits c cur) as [[[]|]| |]; cbn [orbind]; try congruence.
    destruct (_ <=? _)%N; try congruence. unfold slice.
    destruct (_ && _); cbn [obind]; congruence.
Qed.

(** without a list there is no hang *)
Lemma no_list_terminates : forall n c cur, ~ In 108%N c -> (rem c cur <= n)%nat ->
  (forall f, (2 * n + 1 <= f)%nat -> decode_f f c cur <> OutOfFuel) /\
  (forall f acc, (2 * n + 2 <= f)%nat -> dict_f f c cur acc <> OutOfFuel).
Proof.
  induction n as [|n IH]; intros c cur Nl Hr.
  - assert (L : (List.length c <= cur)%nat) by (unfold rem in Hr; lia). split.
    + intros f Hf. destruct f; [lia|]. cbn [decode_f].
      now rewrite (proj2 (nth_error_None c cur)) by lia.
    + intros f acc Hf. destruct f; [lia|]. cbn [dict_f]. unfold get_current_byte, index.
      now rewrite (proj2 (nth_error_None c cur)) by lia.
  - pose proof (parsers_finish c) as PI.
    assert (Main : (forall f, (2 * S n + 1 <= f)%nat -> decode_f f c cur <> OutOfFuel)).
    { intros f Hf. destruct f; [lia|]. cbn [decode_f].
      destruct (nth_error c cur) as [b|] eqn:Eb; [|congruence].
      destruct (b =? 105)%N; [apply PI|].
      destruct (b =? 108)%N eqn:E2.
      { apply N.eqb_eq in E2. subst. exfalso. apply Nl. eapply nth_error_In; eauto. }
      assert (L : (cur < List.length c)%nat) by (apply nth_error_Some; congruence).
      destruct (b =? 100)%N.
      { apply IH; auto; unfold rem in *; lia. }
      destruct (_ && _); [|congruence].
      pose proof (proj2 (PI cur)). destruct (parse_string c cur) as [[[]|]| |]; cbn; congruence. }
    split; auto.
    intros f acc Hf. destruct f; [lia|]. cbn [dict_f]. unfold get_current_byte, index.
    destruct (nth_error c cur) as [b|] eqn:Eb; cbn [obind]; [|congruence].
    assert (L : (cur < List.length c)%nat) by (apply nth_error_Some; congruence).
    destruct (b =? 101)%N; [congruence|].
    pose proof (proj2 (PI cur)) as PS.
    destruct (parse_string c cur) as [[[k cur1]|]| |] eqn:P; cbn [orbind]; try congruence.
    destruct (utf8_valid k); [|congruence].
    apply (parse_string_local _ _ _ _ c) in P as (Lp & _).
    assert (D : decode_f f c cur1 <> OutOfFuel) by (apply IH; auto; unfold rem in *; lia).
    destruct (decode_f f c cur1) as [[[v cur2]|]| |] eqn:E; cbn [orbind]; try congruence.
    apply (proj1 (decode_local f c c)) in E as (L1 & _ & _).
    apply IH; auto; unfold rem in *; lia.
Qed.

Lemma no_list_no_hang : forall c, ~ In 108%N c -> decode c <> OutOfFuel.
Proof.
  intros c H. unfold decode, decode_at. apply (no_list_terminates (List.length c)); auto.
  - unfold rem. lia.
  - lia.
Qed.
