(** ProofWriter: proofs about src/torrent/writer.rs (C24-C27) *)
From Verif Require Import Base Utf8 ModelBencode ModelTorrent ModelWriter SpecWriter ProofBase ProofBencode ProofMessages.

(** ** C24: splitting a piece *)

Lemma uadd_ok : forall p a b, (a + b < 2 ^ 64)%N -> uadd p a b = Ret (a + b)%N.
Proof. intros p a b H. unfold uadd. now rewrite (proj2 (N.ltb_lt _ _)). Qed.
Lemma usub_ok : forall p a b, (b <= a)%N -> usub p a b = Ret (a - b)%N.
Proof. intros p a b H. unfold usub. now rewrite (proj2 (N.leb_le _ _)). Qed.
Lemma umul_ok : forall p a b, (a * b < 2 ^ 64)%N -> umul p a b = Ret (a * b)%N.
Proof. intros p a b H. unfold umul. now rewrite (proj2 (N.ltb_lt _ _)). Qed.
Lemma sliceN_ok : forall A (l : list A) a b, (a <= b)%N -> (b <= lenN l)%N -> sliceN l a b = Ret (range a b l).
Proof. intros A l a b H1 H2. unfold sliceN. now rewrite (proj2 (N.leb_le a b)), (proj2 (N.leb_le b _)). Qed.

Lemma range_length : forall A a b (l : list A), (b <= lenN l)%N -> lenN (range a b l) = (b - a)%N.
Proof. intros A a b l H. unfold range, lenN in *. rewrite firstn_length, skipn_length. lia. Qed.

Definition view (w : file_writer) : list bytes * N * bytes := (fw_path w, fw_start w, fw_piece w).

Lemma split_after : forall files st o piece, (o + lenN piece <= st)%N -> split_piece files st o piece = [].
Proof.
  induction files as [|f t IH]; intros st o piece H; [reflexivity|].
  cbn [split_piece]. fold (lenN piece). rewrite (proj2 (N.ltb_ge st _)) by auto. rewrite andb_false_r. cbn [app].
  apply IH. lia.
Qed.

Lemma loop_spec : forall p piece files s acc st o,
  piece <> [] -> (st + total_length files < 2 ^ 64)%N -> (o + lenN piece < 2 ^ 64)%N ->
  fp_piece_length s = lenN piece -> fp_offset s = o -> fp_right_file_boundary s = st ->
  fp_start_file_index s = N.max st o -> (st < o + lenN piece)%N ->
  exists ws, file_writers_loop p piece files s acc = Ret (acc ++ ws) /\
    map view ws = split_piece files st o piece /\
    Forall (fun w => fw_end w = fw_start w + lenN (fw_piece w))%N ws.
Proof.
  intros p piece. induction files as [|f t IH]; intros s acc st o NE T O Hl Ho Hr Hs Hlt; cbn [file_writers_loop].
  - exists []. rewrite app_nil_r. cbn. auto.
  - cbn [total_length] in T. unfold get_length, update_right_file_boundary. rewrite Hr, uadd_ok by lia.
    cbn [obind]. unfold is_piece_in_file. cbn [fp_offset fp_right_file_boundary]. rewrite Ho.
    cbn [split_piece]. fold (lenN piece).
    rewrite (proj2 (N.ltb_lt st _)) by auto. rewrite andb_true_r.
    destruct (N.ltb_spec o (st + f_length f)) as [In|Out].
    + unfold update_end_file_index. cbn [fp_offset fp_piece_length fp_right_file_boundary fp_start_file_index].
      rewrite ?Hl, ?Ho, uadd_ok by auto. cbn [obind].
      unfold get_start_file_index, get_end_file_index, get_start_piece_index, get_end_piece_index, is_piece_finished.
      cbn [fp_offset fp_piece_length fp_right_file_boundary fp_start_file_index fp_end_file_index].
      rewrite ?Hs, ?Ho, ?Hl. rewrite !usub_ok by lia. cbn [obind]. rewrite !usub_ok by lia. cbn [obind].
      rewrite sliceN_ok by lia. cbn [obind]. rewrite uadd_ok by auto. cbn [obind].
      assert (LR : lenN (range (N.max st o - o) (N.min (st + f_length f) (o + lenN piece) - o) piece)
        = (N.min (st + f_length f) (o + lenN piece) - N.max st o)%N) by (rewrite range_length by lia; lia).
      destruct (N.ltb_spec (st + f_length f) (o + lenN piece)) as [More|Done].
      * match goal with |- context [file_writers_loop _ _ _ ?s' (_ ++ [?x])] =>
          destruct (IH s' (acc ++ [x]) (st + f_length f)%N o) as (ws & E1 & E2 & E3); auto; try lia;
          [cbn [update_start_file_index fp_start_file_index fp_end_file_index]; lia|exists (x :: ws)] end.
        rewrite E1, <- app_assoc. split; [reflexivity|]. cbn [map app]. rewrite E2. unfold view at 1.
        cbn [fw_path fw_start fw_piece]. unfold get_path.
        split; [do 3 f_equal; lia|].
        constructor; [|auto]. cbn [fw_start fw_end fw_piece]. rewrite LR. lia.
      * eexists [_]. split; [reflexivity|]. cbn [map app]. rewrite split_after by lia. unfold view.
        cbn [fw_path fw_start fw_piece]. unfold get_path. split; [do 3 f_equal; lia|].
        constructor; [|constructor]. cbn [fw_start fw_end fw_piece]. rewrite LR. lia.
    + destruct (IH {| fp_piece_length := fp_piece_length s; fp_offset := fp_offset s;
           fp_start_file_index := fp_start_file_index s; fp_end_file_index := fp_end_file_index s;
           fp_right_file_boundary := st + f_length f |} acc (st + f_length f)%N o) as (ws & E1 & E2 & E3);
        auto; try lia.
      { cbn [fp_start_file_index]. lia. }
      { unfold lenN in *. destruct piece; [congruence|cbn [List.length] in *; lia]. }
      exists ws. cbn [app]. rewrite <- Ho at 1. auto.
Qed.

Lemma loop_past : forall p piece files s acc st o,
  (st + total_length files < 2 ^ 64)%N -> (st + total_length files <= o)%N ->
  fp_offset s = o -> fp_right_file_boundary s = st ->
  file_writers_loop p piece files s acc = Ret acc.
Proof.
  intros p piece. induction files as [|f t IH]; intros s acc st o T O Ho Hr; cbn [file_writers_loop]; [reflexivity|].
  cbn [total_length] in *. unfold get_length, update_right_file_boundary. rewrite Hr, uadd_ok by lia.
  cbn [obind]. unfold is_piece_in_file. cbn [fp_offset fp_right_file_boundary]. rewrite Ho.
  rewrite (proj2 (N.ltb_ge o _)) by lia. apply (IH _ acc (st + f_length f)%N o); auto; lia.
Qed.

Lemma c24_split : forall p files piece idx plen,
  piece <> [] -> (total_length files < 2 ^ 64)%N -> (idx * plen + lenN piece < 2 ^ 64)%N ->
  exists ws, get_file_writers p files piece idx plen = Ret ws /\
    map view ws = split_piece files 0 (idx * plen) piece /\
    Forall (fun w => fw_end w = fw_start w + lenN (fw_piece w))%N ws.
Proof.
  intros p files piece idx plen NE T O. unfold get_file_writers, file_parser_new.
  rewrite umul_ok by lia. cbn [obind].
  assert (L : (0 < lenN piece)%N) by (unfold lenN; destruct piece; [congruence|cbn [List.length]; lia]).
  match goal with |- context [file_writers_loop p piece files ?s []] =>
    destruct (loop_spec p piece files s [] 0%N (idx * plen)%N) as (ws & E1 & E2 & E3) end;
    auto; try lia.
  { cbn [fp_start_file_index]. lia. }
  exists ws. auto.
Qed.

(** ** Facts about the specification of splitting *)

Lemma range_split : forall A a b c (l : list A), (a <= b)%N -> (b <= c)%N -> range a b l ++ range b c l = range a c l.
Proof.
  intros A a b c l H1 H2. unfold range.
  replace (N.to_nat (c - a)) with (N.to_nat (b - a) + N.to_nat (c - b))%nat by lia.
  rewrite <- firstn_skipn_add, skipn_add. do 3 f_equal. lia.
Qed.

Lemma range_empty : forall A a b (l : list A), (b <= a)%N -> range a b l = [].
Proof. intros A a b l H. unfold range. replace (N.to_nat (b - a)) with 0%nat by lia. reflexivity. Qed.

Lemma split_concat_gen : forall files st o piece,
  List.concat (map snd (split_piece files st o piece))
  = range (N.max st o - o) (N.min (st + total_length files) (o + lenN piece) - o) piece.
Proof.
  induction files as [|f t IH]; intros st o piece; cbn [split_piece total_length].
  - cbn [map List.concat]. rewrite N.add_0_r. symmetry. apply range_empty. lia.
  - fold (lenN piece). rewrite map_app, concat_app, IH.
    destruct ((o <? st + f_length f) && (st <? o + lenN piece))%N eqn:C; cbn [map List.concat snd].
    + rewrite app_nil_r.
      destruct (N.leb_spec (o + lenN piece) (st + f_length f)) as [Q|Q].
      * rewrite (range_empty _ (N.max (st + f_length f) o - o)%N) by lia. rewrite app_nil_r. f_equal; lia.
      * replace (N.min (st + f_length f) (o + lenN piece) - o)%N with (N.max (st + f_length f) o - o)%N by lia.
        rewrite range_split by lia. f_equal; lia.
    + cbn [app]. destruct (N.leb_spec (st + f_length f) o) as [Q|Q].
      * f_equal; lia.
      * rewrite !range_empty by lia. reflexivity.
Qed.

Lemma c24_concat : forall files o piece,
  List.concat (map snd (split_piece files 0 o piece)) = range 0 (total_length files - o) piece.
Proof.
  intros files o piece. rewrite split_concat_gen.
  destruct (N.leb_spec (total_length files) (o + lenN piece)) as [Q|Q].
  - f_equal; lia.
  - unfold range, lenN in *. rewrite !firstn_all2; [| | ]; try (rewrite skipn_length; lia).
    replace (N.to_nat (N.max 0 o - o)) with 0%nat by lia. reflexivity.
Qed.

Lemma file_start_S : forall f t k, file_start (f :: t) (S k) = (f_length f + file_start t k)%N.
Proof. reflexivity. Qed.

Lemma split_in_gen : forall files st o piece path pos data, In (path, pos, data) (split_piece files st o piece) ->
  exists k f, nth_error files k = Some f /\ path = f_path f /\
    (pos + lenN data <= f_length f)%N /\ (o <= st + file_start files k + pos)%N /\
    data = range (st + file_start files k + pos - o) (st + file_start files k + pos + lenN data - o) piece.
Proof.
  induction files as [|f t IH]; intros st o piece path pos data H; cbn [split_piece] in H; [easy|].
  fold (lenN piece) in H. apply in_app_or in H as [H|H].
  - destruct ((o <? st + f_length f) && (st <? o + lenN piece))%N eqn:C; [|easy].
    destruct H as [E|[]]. injection E as <- <- <-. exists 0%nat, f. unfold file_start. cbn [firstn total_length nth_error].
    rewrite range_length by lia. repeat split; try lia. f_equal; lia.
  - apply IH in H as (k & g & E & P & L & O & D). exists (S k), g. rewrite file_start_S. cbn [nth_error].
    split; [auto|]. split; [auto|]. split; [auto|]. split; [lia|]. rewrite D at 1. f_equal; lia.
Qed.

Lemma split_cover_gen : forall files st o piece k f g, nth_error files k = Some f ->
  (st + file_start files k <= g < st + file_start files k + f_length f)%N -> (o <= g < o + lenN piece)%N ->
  exists pos data, In (f_path f, pos, data) (split_piece files st o piece) /\
    (pos <= g - (st + file_start files k) < pos + lenN data)%N.
Proof.
  induction files as [|f0 t IH]; intros st o piece k f g Hk Hg Ho; [destruct k; discriminate|].
  cbn [split_piece]. fold (lenN piece). destruct k as [|k].
  - cbn in Hk. injection Hk as ->. unfold file_start in Hg |- *. cbn [firstn total_length] in Hg |- *.
    assert (C : ((o <? st + f_length f) && (st <? o + lenN piece))%N = true) by lia. rewrite C.
    eexists _, _. split; [left; reflexivity|]. rewrite range_length by lia. lia.
  - cbn [nth_error] in Hk. rewrite file_start_S in Hg |- *.
    destruct (IH (st + f_length f0)%N o piece k f g Hk ltac:(lia) Ho) as (pos & data & I & P).
    exists pos, data. split; [apply in_or_app; auto|]. lia.
Qed.

Lemma file_start_le : forall files k f, nth_error files k = Some f ->
  (file_start files k + f_length f <= total_length files)%N.
Proof.
  unfold file_start. induction files as [|g t IH]; intros [|k] f H; cbn in *; try discriminate.
  - injection H as ->. lia.
  - specialize (IH k f H). lia.
Qed.

(** ** The file system *)

Lemma loc_eqb_eq : forall a b, loc_eqb a b = true <-> a = b.
Proof.
  induction a as [|x a IH]; intros [|y b]; cbn [loc_eqb]; try (split; congruence); try tauto.
  rewrite andb_true_iff, bytes_eqb_eq, IH. split; [intros [-> ->]; auto|intros E; injection E; auto].
Qed.
Lemma fs_set_same : forall d l n, fs_set d l n l = Some n.
Proof. intros. unfold fs_set. now rewrite (proj2 (loc_eqb_eq l l)). Qed.
Lemma fs_set_other : forall d l l' n, l <> l' -> fs_set d l n l' = d l'.
Proof.
  intros d l l' n H. unfold fs_set. destruct (loc_eqb l l') eqn:E; auto. apply loc_eqb_eq in E. congruence.
Qed.

Lemma split_slash_plain : forall n, ~ In 47%N n -> split_slash n = [n].
Proof.
  induction n as [|b t IH]; intros H; [reflexivity|]. cbn [split_slash].
  rewrite (proj2 (N.eqb_neq b 47)) by (intros ->; apply H; cbn; auto).
  rewrite IH by (intros I; apply H; cbn; auto). reflexivity.
Qed.
Lemma split_slash_app : forall n r, ~ In 47%N n -> split_slash (n ++ 47%N :: r) = n :: split_slash r.
Proof.
  induction n as [|b t IH]; intros r H; [reflexivity|]. cbn [app split_slash].
  rewrite (proj2 (N.eqb_neq b 47)) by (intros ->; apply H; cbn; auto).
  rewrite IH by (intros I; apply H; cbn; auto). reflexivity.
Qed.
Lemma split_join : forall p, p <> [] -> Forall (fun n => ~ In 47%N n) p -> split_slash (join_slash p) = p.
Proof.
  induction p as [|n t IH]; intros NE F; [congruence|]. inversion F; subst. destruct t as [|m t].
  - cbn. now apply split_slash_plain.
  - change (join_slash (n :: m :: t)) with (n ++ 47%N :: join_slash (m :: t)).
    rewrite split_slash_app by auto. rewrite IH by (auto; discriminate). reflexivity.
Qed.
Lemma join_in : forall p b, In b (join_slash p) -> b = 47%N \/ exists n, In n p /\ In b n.
Proof.
  induction p as [|n t IH]; intros b H; [easy|]. destruct t as [|m t].
  - cbn in H. right. exists n. cbn; auto.
  - change (join_slash (n :: m :: t)) with (n ++ 47%N :: join_slash (m :: t)) in H.
    apply in_app_or in H as [H|[H|H]]; [right; exists n; cbn; auto|auto|].
    destruct (IH b H) as [?|(n' & I & J)]; [auto|]. right. exists n'. cbn. cbn in I. tauto.
Qed.

Definition plain_name (n : bytes) : Prop := n <> [] /\ ~ In 47%N n /\ n <> dot /\ n <> dotdot.
Lemma sane_plain : forall n, sane_name n -> plain_name n.
Proof. intros n (A & B & _ & C & D). unfold plain_name. auto. Qed.

Lemma walk_spec : forall names d at_ d1 dir, Forall plain_name names ->
  walk_create d at_ names = Some (d1, dir) ->
  dir = at_ ++ names /\
  (forall q r, names = q ++ r -> q <> [] ->
     (d (at_ ++ q) = None \/ d (at_ ++ q) = Some NDir) /\ d1 (at_ ++ q) = Some NDir) /\
  (forall l, (forall q r, names = q ++ r -> q <> [] -> l <> at_ ++ q) -> d1 l = d l).
Proof.
  induction names as [|n t IH]; intros d at_ d1 dir F H; cbn [walk_create] in H.
  - injection H as <- <-. rewrite app_nil_r. split; [auto|]. split; [|auto].
    intros q r E Q. destruct q; [congruence|discriminate].
  - inversion F as [|? ? (N1 & N2 & N3 & N4) F']; subst.
    rewrite (proj2 (bytes_eqb_neq n [])), (proj2 (bytes_eqb_neq n dot)), (proj2 (bytes_eqb_neq n dotdot)) in H by auto.
    cbn [orb] in H.
    assert (K : exists d', walk_create d' (at_ ++ [n]) t = Some (d1, dir) /\
      (d (at_ ++ [n]) = None \/ d (at_ ++ [n]) = Some NDir) /\ d' (at_ ++ [n]) = Some NDir /\
      forall l, l <> at_ ++ [n] -> d' l = d l).
    { destruct (d (at_ ++ [n])) as [[|c]|] eqn:E; [|discriminate|].
      - exists d. auto.
      - exists (fs_set d (at_ ++ [n]) NDir). split; [auto|]. split; [auto|]. split; [apply fs_set_same|].
        intros l Hl. apply fs_set_other. auto. }
    destruct K as (d' & H' & K1 & K2 & K3).
    destruct (IH d' (at_ ++ [n]) d1 dir F' H') as (-> & P & Q).
    split; [rewrite <- app_assoc; reflexivity|].
    assert (NP : forall q, q <> [] -> at_ ++ [n] <> (at_ ++ [n]) ++ q).
    { intros q Hq E. rewrite <- (app_nil_r (at_ ++ [n])) in E at 1. apply app_inv_head in E. auto. }
    split.
    + intros q r E Hq. destruct q as [|x q]; [congruence|]. cbn [app] in E. injection E as <- E.
      destruct q as [|y q].
      * split; [auto|]. rewrite Q; auto.
      * destruct (P (y :: q) r E ltac:(discriminate)) as [P1 P2].
        rewrite <- app_assoc in P1, P2. cbn [app] in P1, P2. split; [|auto].
        rewrite K3 in P1; auto. intros E2.
        apply (NP (y :: q)); [discriminate|]. rewrite <- app_assoc. cbn [app]. auto.
    + intros l Hl. rewrite Q.
      * apply K3. apply (Hl [n] t); [reflexivity|discriminate].
      * intros q r E Hq. rewrite <- app_assoc. cbn [app]. apply (Hl (n :: q) r); [cbn; congruence|discriminate].
Qed.

Lemma walk_succeeds : forall names d at_, Forall plain_name names ->
  (forall q r, names = q ++ r -> q <> [] -> d (at_ ++ q) = None \/ d (at_ ++ q) = Some NDir) ->
  exists d1 dir, walk_create d at_ names = Some (d1, dir).
Proof.
  induction names as [|n t IH]; intros d at_ F H; cbn [walk_create]; [eauto|].
  inversion F as [|? ? (N1 & N2 & N3 & N4) F']; subst.
  rewrite (proj2 (bytes_eqb_neq n [])), (proj2 (bytes_eqb_neq n dot)), (proj2 (bytes_eqb_neq n dotdot)) by auto.
  cbn [orb].
  assert (K : forall d', (forall l, l <> at_ ++ [n] -> d' l = d l) ->
     forall q r, t = q ++ r -> q <> [] -> d' ((at_ ++ [n]) ++ q) = None \/ d' ((at_ ++ [n]) ++ q) = Some NDir).
  { intros d' K q r E Hq. rewrite K.
    - rewrite <- app_assoc. cbn [app]. apply (H (n :: q) r); [cbn; congruence|discriminate].
    - intros E2. rewrite <- (app_nil_r (at_ ++ [n])) in E2 at 2. apply app_inv_head in E2. auto. }
  destruct (H [n] t eq_refl ltac:(discriminate)) as [E|E]; rewrite E.
  - apply IH; auto. apply K. intros l Hl. apply fs_set_other. auto.
  - apply IH; auto. apply K. auto.
Qed.

Lemma path_split : forall (p : list bytes), p <> [] -> p = removelast p ++ [last p []].
Proof. intros p H. now apply app_removelast_last. Qed.

Lemma sane_text : forall path, sane_path path ->
  split_slash (join_slash path) = path /\ existsb (N.eqb 0) (join_slash path) = false /\
  is_special (last path []) = false /\
  (match join_slash path with b :: _ => (b =? 47)%N | [] => false end) = false.
Proof.
  intros path [NE F]. split.
  { apply split_join; auto. eapply Forall_impl; [|exact F]. intros n (_ & H & _). auto. }
  split.
  { destruct (existsb (N.eqb 0) (join_slash path)) eqn:E; [|reflexivity].
    apply existsb_exists in E as (b & I & Z). apply N.eqb_eq in Z. subst b.
    apply join_in in I as [?|(n & I & J)]; [discriminate|].
    rewrite Forall_forall in F. destruct (F n I) as (_ & _ & Z & _). contradiction. }
  split.
  { assert (L : sane_name (last path [])).
    { rewrite Forall_forall in F. apply F. rewrite (path_split path NE) at 2. apply in_or_app. cbn; auto. }
    destruct L as (L1 & _ & _ & L2 & L3). unfold is_special.
    rewrite (proj2 (bytes_eqb_neq _ [])), (proj2 (bytes_eqb_neq _ dot)), (proj2 (bytes_eqb_neq _ dotdot)) by auto.
    reflexivity. }
  destruct path as [|n t]; [congruence|]. inversion F as [|? ? (N1 & N2 & _) _]; subst.
  destruct n as [|b n]; [congruence|].
  assert (B : (b =? 47)%N = false) by (apply N.eqb_neq; intros ->; apply N2; cbn; auto).
  destruct t; cbn [join_slash app]; auto.
Qed.

Lemma wfs_unfold : forall acc cwd d w, sane_path (fw_path w) ->
  write_to_filesystem_n acc cwd d w =
  match walk_create d cwd (removelast (fw_path w)) with
  | None => Panic
  | Some (d1, dir) =>
    match d1 (dir ++ [last (fw_path w) []]) with
    | Some NDir => Panic
    | Some (NFile c) => Ret (fs_set d1 (dir ++ [last (fw_path w) []])
                         (NFile (write_at c (fw_start w) (firstn acc (fw_piece w)))))
    | None => Ret (fs_set d1 (dir ++ [last (fw_path w) []])
                         (NFile (write_at [] (fw_start w) (firstn acc (fw_piece w)))))
    end
  end.
Proof.
  intros acc cwd d w S. unfold write_to_filesystem_n. destruct (sane_text _ S) as (E1 & E2 & E3 & E4).
  rewrite E1, E2, E3. cbn [orb].
  replace (match join_slash (fw_path w) with b :: _ => if (b =? 47)%N then [] else cwd | [] => cwd end) with cwd.
  - reflexivity.
  - destruct (join_slash (fw_path w)); [reflexivity|]. now rewrite E4.
Qed.

(** What a write to a plain path does to the disk. *)
Definition dirs_ok (cwd : loc) (d : fs) (path : list bytes) : Prop :=
  forall q r, path = q ++ r -> q <> [] -> r <> [] -> d (cwd ++ q) = None \/ d (cwd ++ q) = Some NDir.

Lemma removelast_prefix : forall (path q r : list bytes), path <> [] -> (removelast path = q ++ r <-> exists x, r ++ [last path []] = x /\ path = q ++ x).
Proof.
  intros path q r NE. split.
  - intros E. eexists. split; [reflexivity|]. rewrite app_assoc, <- E. now apply path_split.
  - intros (x & <- & E). rewrite app_assoc in E. rewrite (path_split path NE) in E.
    apply app_inj_tail in E as [E _]. auto.
Qed.

Lemma wfs_spec : forall acc cwd d w d2, sane_path (fw_path w) ->
  write_to_filesystem_n acc cwd d w = Ret d2 ->
  dirs_ok cwd d (fw_path w) /\ d (cwd ++ fw_path w) <> Some NDir /\
  (forall q r, fw_path w = q ++ r -> q <> [] -> r <> [] -> d2 (cwd ++ q) = Some NDir) /\
  d2 (cwd ++ fw_path w) = Some (NFile (write_at
     (match d (cwd ++ fw_path w) with Some (NFile c) => c | _ => [] end) (fw_start w) (firstn acc (fw_piece w)))) /\
  (forall l, l <> cwd ++ fw_path w ->
     (forall q r, fw_path w = q ++ r -> q <> [] -> r <> [] -> l <> cwd ++ q) -> d2 l = d l).
Proof.
  intros acc cwd d w d2 S H. rewrite wfs_unfold in H by auto. destruct S as [NE F].
  set (path := fw_path w) in *.
  assert (FP : Forall plain_name (removelast path)).
  { apply Forall_forall. intros n I. apply sane_plain. rewrite Forall_forall in F. apply F.
    rewrite (path_split path NE). apply in_or_app. auto. }
  destruct (walk_create d cwd (removelast path)) as [[d1 dir]|] eqn:W; [|discriminate].
  destruct (walk_spec _ _ _ _ _ FP W) as (-> & P & Q).
  assert (PL : (cwd ++ removelast path) ++ [last path []] = cwd ++ path).
  { rewrite <- app_assoc. f_equal. symmetry. now apply path_split. }
  rewrite PL in H.
  assert (PX : forall q r, path = q ++ r -> r <> [] -> exists r', removelast path = q ++ r').
  { intros q r E R. exists (removelast r). rewrite E. apply removelast_app. auto. }
  assert (T : d1 (cwd ++ path) = d (cwd ++ path)).
  { apply Q. intros q r E _ E2. apply app_inv_head in E2.
    rewrite (path_split path NE), E, <- app_assoc in E2. apply (f_equal (@List.length bytes)) in E2.
    rewrite !app_length in E2. cbn in E2. lia. }
  assert (NT : forall q r, path = q ++ r -> r <> [] -> cwd ++ path <> cwd ++ q).
  { intros q r E R E2. apply app_inv_head in E2. rewrite E in E2. rewrite <- (app_nil_r q) in E2 at 2.
    apply app_inv_head in E2. auto. }
  assert (D : dirs_ok cwd d path).
  { intros q r E Hq Hr. destruct (PX q r E Hr) as [r' E']. now destruct (P q r' E' Hq). }
  assert (X : exists c', d2 = fs_set d1 (cwd ++ path) (NFile c') /\ d (cwd ++ path) <> Some NDir /\
    c' = write_at (match d (cwd ++ path) with Some (NFile c) => c | _ => [] end) (fw_start w) (firstn acc (fw_piece w))).
  { rewrite T in H. destruct (d (cwd ++ path)) as [[|c]|]; [discriminate| |];
      injection H as <-; eexists; (split; [reflexivity|]; split; [discriminate|reflexivity]). }
  destruct X as (c' & -> & ND & ->). split; [auto|]. split; [auto|].
  split; [|split].
  - intros q r E Hq Hr. rewrite fs_set_other by (eapply NT; eauto).
    destruct (PX q r E Hr) as [r' E']. now destruct (P q r' E' Hq).
  - apply fs_set_same.
  - intros l L1 L2. rewrite fs_set_other by auto. apply Q. intros q r E Hq.
    apply (removelast_prefix path q r NE) in E as (x & <- & E).
    apply (L2 q (r ++ [last path []])); auto. destruct r; discriminate.
Qed.

Lemma wfs_succeeds : forall acc cwd d w, sane_path (fw_path w) -> dirs_ok cwd d (fw_path w) ->
  d (cwd ++ fw_path w) <> Some NDir -> exists d2, write_to_filesystem_n acc cwd d w = Ret d2.
Proof.
  intros acc cwd d w S D ND. rewrite wfs_unfold by auto. destruct S as [NE F]. set (path := fw_path w) in *.
  assert (FP : Forall plain_name (removelast path)).
  { apply Forall_forall. intros n I. apply sane_plain. rewrite Forall_forall in F. apply F.
    rewrite (path_split path NE). apply in_or_app. auto. }
  destruct (walk_succeeds (removelast path) d cwd FP) as (d1 & dir & W).
  { intros q r E Hq. apply (removelast_prefix path q r NE) in E as (x & <- & E).
    apply (D q (r ++ [last path []])); auto. destruct r; discriminate. }
  rewrite W. destruct (walk_spec _ _ _ _ _ FP W) as (-> & P & Q).
  assert (PL : (cwd ++ removelast path) ++ [last path []] = cwd ++ path).
  { rewrite <- app_assoc. f_equal. symmetry. now apply path_split. }
  rewrite PL.
  assert (T : d1 (cwd ++ path) = d (cwd ++ path)).
  { apply Q. intros q r E _ E2. apply app_inv_head in E2.
    rewrite (path_split path NE), E, <- app_assoc in E2. apply (f_equal (@List.length bytes)) in E2.
    rewrite !app_length in E2. cbn in E2. lia. }
  rewrite T. destruct (d (cwd ++ path)) as [[|c]|]; [congruence|eauto|eauto].
Qed.

(** ** Writing pieces *)

Lemma nth_error_range : forall A a b (l : list A) j, (N.of_nat j < b - a)%N ->
  nth_error (range a b l) j = nth_error l (N.to_nat a + j).
Proof.
  intros A a b l j H. unfold range. rewrite nth_error_firstn_lt by lia.
  revert l. generalize (N.to_nat a) as m. induction m; intros l; [reflexivity|].
  destruct l; cbn [skipn]; [now rewrite !(proj2 (nth_error_None _ _)) by (cbn; lia)|]. apply IHm.
Qed.

Lemma write_at_length : forall c s x, lenN (write_at c s x) = (match x with [] => lenN c | _ => N.max (lenN c) (s + lenN x) end).
Proof.
  intros c s x. unfold write_at, lenN. destruct x as [|b x]; [reflexivity|].
  rewrite !app_length, firstn_length, repeat_length, skipn_length. cbn [List.length]. lia.
Qed.

Lemma write_at_in : forall c s x j, (N.to_nat s <= j < N.to_nat s + List.length x)%nat ->
  nth_error (write_at c s x) j = nth_error x (j - N.to_nat s).
Proof.
  intros c s x j H. unfold write_at. destruct x as [|b x]; [cbn in H; lia|].
  rewrite app_assoc. rewrite nth_error_app2 by (rewrite app_length, firstn_length, repeat_length; lia).
  rewrite app_length, firstn_length, repeat_length.
  rewrite nth_error_app1 by lia. f_equal. lia.
Qed.

Lemma nth_error_skipn' : forall A (l : list A) m j, nth_error (skipn m l) j = nth_error l (m + j).
Proof.
  induction l as [|x l IH]; intros [|m] j; cbn [skipn Nat.add]; try reflexivity; [now destruct j|apply IH].
Qed.

Lemma write_at_out : forall c s x j, (j < List.length c)%nat ->
  (j < N.to_nat s \/ N.to_nat s + List.length x <= j)%nat ->
  nth_error (write_at c s x) j = nth_error c j.
Proof.
  intros c s x j L H. unfold write_at. destruct x as [|b x]; [reflexivity|].
  destruct H as [H|H].
  - rewrite nth_error_app1 by (rewrite firstn_length; lia). apply nth_error_firstn_lt. lia.
  - rewrite !app_assoc. rewrite nth_error_app2; rewrite !app_length, firstn_length, repeat_length; [|lia].
    rewrite nth_error_skipn'. f_equal. lia.
Qed.

(** A write that puts bytes of [T] at their place. *)
Definition right_write (files : list file) (T : bytes) (k : nat) (w : file_writer) : Prop :=
  exists f, nth_error files k = Some f /\ fw_path w = f_path f /\
    (fw_start w + lenN (fw_piece w) <= f_length f)%N /\
    forall j, (j < List.length (fw_piece w))%nat ->
      nth_error (fw_piece w) j = nth_error T (N.to_nat (file_start files k + fw_start w) + j).

Lemma file_index_unique : forall files k k' f f', good_files files -> nth_error files k = Some f ->
  nth_error files k' = Some f' -> f_path f = f_path f' -> k = k'.
Proof.
  intros files k k' f f' [_ G] H H' E. destruct (Nat.eq_dec k k') as [|N]; [auto|].
  exfalso. apply (G k k' f f' H H' N). exists []. now rewrite app_nil_r.
Qed.

Lemma write_right : forall acc cwd files T k w d, total_length files = lenN T -> good_files files -> disk_ready cwd files d ->
  right_write files T k w ->
  exists d2, write_to_filesystem_n acc cwd d w = Ret d2 /\ disk_ready cwd files d2 /\
    (forall g, holds cwd files T d g -> holds cwd files T d2 g) /\
    (forall g, (List.length (fw_piece w) <= acc)%nat ->
       (file_start files k + fw_start w <= g < file_start files k + fw_start w + lenN (fw_piece w))%N ->
       forall k' f, nth_error files k' = Some f -> k' = k ->
       exists c, d2 (cwd ++ f_path f) = Some (NFile c) /\
         nth_error c (N.to_nat (g - file_start files k)) = nth_error T (N.to_nat g)) /\
    (forall l, unrelated cwd files l -> d2 l = d l) /\
    (forall k' f, nth_error files k' = Some f ->
       (d2 (cwd ++ f_path f) = None <-> d (cwd ++ f_path f) = None /\ k' <> k)).
Proof.
  intros acc cwd files T k w d TL G R (f & Hk & P & B & RW).
  assert (Hin : In f files) by (eapply nth_error_In; eauto).
  assert (S : sane_path (fw_path w)).
  { rewrite P. destruct G as [F _]. rewrite Forall_forall in F. apply F. auto. }
  destruct (R f Hin) as [D0 F0].
  assert (ND : d (cwd ++ fw_path w) <> Some NDir).
  { rewrite P. destruct F0 as [E|(c & E & _)]; rewrite E; discriminate. }
  assert (DO : dirs_ok cwd d (fw_path w)) by (unfold dirs_ok; rewrite P; exact D0).
  destruct (wfs_succeeds acc cwd d w S DO ND) as [d2 E]. exists d2. split; [auto|].
  destruct (wfs_spec _ _ _ _ _ S E) as (_ & _ & S1 & S2 & S3).
  rewrite P in S, ND, DO, S1, S2, S3.
  set (c0 := match d (cwd ++ f_path f) with Some (NFile c) => c | _ => [] end) in *.
  assert (C0 : (lenN c0 <= f_length f)%N).
  { subst c0. destruct F0 as [E'|(c & E' & L)]; rewrite E'; [cbn; lia|]. unfold lenN. auto. }
  set (x := firstn acc (fw_piece w)) in *.
  assert (X : (lenN x <= lenN (fw_piece w))%N) by (unfold lenN, x; rewrite firstn_length; lia).
  (* other files of the torrent are not touched *)
  assert (OTH : forall k' g, nth_error files k' = Some g -> k' <> k -> d2 (cwd ++ f_path g) = d (cwd ++ f_path g)).
  { intros k' g Hk' N. destruct G as [_ G]. apply S3.
    - intros Eq. apply app_inv_head in Eq. apply (G k' k g f Hk' Hk N). exists []. now rewrite app_nil_r.
    - intros q r Eq _ _ El. apply app_inv_head in El. apply (G k' k g f Hk' Hk N). exists r. now rewrite El. }
  split; [|split; [|split; [|split]]].
  - intros g Hg. apply In_nth_error in Hg as Hk'. destruct Hk' as [k' Hk'].
    split.
    + intros q r Eq Nq Nr. destruct (R g Hg) as [Dg _].
      destruct (list_eq_dec (list_eq_dec N.eq_dec) q (f_path f)) as [->|Nf].
      { exfalso. destruct G as [_ G]. destruct (Nat.eq_dec k k') as [<-|NN].
        - rewrite Hk in Hk'. injection Hk' as <-. rewrite <- (app_nil_r (f_path f)) in Eq at 1.
          apply app_inv_head in Eq. auto.
        - apply (G k k' f g Hk Hk' NN). exists r. auto. }
      destruct (in_dec (list_eq_dec (list_eq_dec N.eq_dec)) q
                  (map (fun m => firstn m (f_path f)) (seq 0 (List.length (f_path f))))) as [I|NI].
      * right. apply in_map_iff in I as (m & <- & I). apply in_seq in I.
        apply (S1 (firstn m (f_path f)) (skipn m (f_path f))).
        -- symmetry. apply firstn_skipn.
        -- auto.
        -- intros Z. apply (f_equal (@List.length bytes)) in Z. rewrite skipn_length in Z. cbn in Z. lia.
      * rewrite S3; [apply (Dg q r); auto| |].
        -- intros Z. apply app_inv_head in Z. auto.
        -- intros q' r' E' Nq' Nr' Z. apply app_inv_head in Z. subst q'. apply NI. apply in_map_iff.
           exists (List.length q). split.
           ++ rewrite E', firstn_app, firstn_all, Nat.sub_diag, firstn_O. apply app_nil_r.
           ++ apply in_seq. rewrite E', app_length. destruct r'; [congruence|cbn; lia].
    + destruct (Nat.eq_dec k k') as [<-|NN].
      * rewrite Hk in Hk'. injection Hk' as <-. right. eexists. split; [exact S2|].
        change (lenN (write_at c0 (fw_start w) x) <= f_length f)%N. rewrite write_at_length. destruct x; lia.
      * rewrite (OTH k' g Hk') by auto. apply R; auto.
  - intros g Hg k' f' Hk' Rg. destruct (Hg k' f' Hk' Rg) as (c & Ec & En).
    destruct (Nat.eq_dec k' k) as [->|NN].
    + rewrite Hk in Hk'. injection Hk' as <-. eexists. split; [exact S2|]. rewrite <- En.
      assert (c = c0) by (subst c0; rewrite Ec; reflexivity). subst c.
      set (j := N.to_nat (g - file_start files k)) in *.
      assert (LC : (j < List.length c0)%nat).
      { apply nth_error_Some. rewrite En. apply nth_error_Some. unfold lenN in TL.
        pose proof (file_start_le files k f Hk). lia. }
      destruct (Nat.lt_ge_cases j (N.to_nat (fw_start w))) as [L|L]; [apply write_at_out; auto|].
      destruct (Nat.lt_ge_cases j (N.to_nat (fw_start w) + List.length x)) as [L2|L2]; [|apply write_at_out; auto].
      rewrite write_at_in by lia. unfold x in L2 |- *. rewrite firstn_length in L2.
      rewrite nth_error_firstn_lt by lia. rewrite RW by lia. rewrite En. f_equal. lia.
    + rewrite (OTH k' f' Hk') by auto. eauto.
  - intros g A Rg k' f' Hk' ->. rewrite Hk in Hk'. injection Hk' as <-. eexists. split; [exact S2|].
    unfold x. rewrite firstn_all2 by auto. unfold lenN in Rg. rewrite write_at_in by lia.
    rewrite RW by lia. f_equal. lia.
  - intros l U. apply S3.
    + apply (U f (f_path f) []); auto; [now rewrite app_nil_r|]. destruct S as [S _]. exact S.
    + intros q r Eq Nq _. apply (U f q r); auto.
  - intros k' f' Hk'. destruct (Nat.eq_dec k' k) as [->|NN].
    + rewrite Hk in Hk'. injection Hk' as <-. rewrite S2. split; [discriminate|intros [_ []]; auto].
    + rewrite (OTH k' f' Hk') by auto. tauto.
Qed.

Lemma piece_length : forall T plen i, (0 < plen)%N -> (i < piece_count (lenN T) plen)%N ->
  (i * plen < lenN T)%N /\ lenN (torrent_piece T plen i) = N.min plen (lenN T - i * plen)%N.
Proof.
  intros T plen i P H. unfold piece_count in H.
  assert (L : (i * plen < lenN T)%N).
  { pose proof (N.mul_div_le (lenN T + plen - 1) plen ltac:(lia)). nia. }
  split; [auto|]. unfold torrent_piece, range, lenN in *. rewrite firstn_length, skipn_length. lia.
Qed.

Definition meets (files : list file) (k : nat) (f : file) (o len : N) : Prop :=
  (o < file_start files k + f_length f /\ file_start files k < o + len)%N.

Lemma split_meets : forall files st o piece k f, nth_error files k = Some f ->
  (o < st + file_start files k + f_length f /\ st + file_start files k < o + lenN piece)%N ->
  exists pos data, In (f_path f, pos, data) (split_piece files st o piece).
Proof.
  induction files as [|f0 t IH]; intros st o piece k f Hk M; [destruct k; discriminate|].
  cbn [split_piece]. fold (lenN piece). destruct k as [|k].
  - cbn in Hk. injection Hk as ->. unfold file_start in M. cbn [firstn total_length] in M.
    rewrite (proj2 (N.ltb_lt o _)), (proj2 (N.ltb_lt st _)) by lia. cbn [andb app].
    eexists _, _. left. reflexivity.
  - rewrite file_start_S in M. cbn [nth_error] in Hk.
    destruct (IH (st + f_length f0)%N o piece k f Hk ltac:(lia)) as (pos & data & I).
    exists pos, data. apply in_or_app. auto.
Qed.

Lemma split_meets_conv : forall files st o piece path pos data, In (path, pos, data) (split_piece files st o piece) ->
  exists k f, nth_error files k = Some f /\ path = f_path f /\
  (o < st + file_start files k + f_length f /\ st + file_start files k < o + lenN piece)%N.
Proof.
  induction files as [|f t IH]; intros st o piece path pos data H; cbn [split_piece] in H; [easy|].
  fold (lenN piece) in H. apply in_app_or in H as [H|H].
  - destruct ((o <? st + f_length f) && (st <? o + lenN piece))%N eqn:C; [|easy].
    destruct H as [E|[]]. injection E as <- <- <-. exists 0%nat, f. unfold file_start. cbn [firstn total_length nth_error].
    repeat split; lia.
  - apply IH in H as (k & g & E & P & L). exists (S k), g. rewrite file_start_S. cbn [nth_error].
    repeat split; auto; lia.
Qed.

Lemma writers_right : forall p files T plen i, total_length files = lenN T -> (lenN T < 2 ^ 64)%N -> (0 < plen)%N ->
  (i < piece_count (lenN T) plen)%N ->
  exists ws, get_file_writers p files (torrent_piece T plen i) i plen = Ret ws /\
    Forall (fun w => exists k, right_write files T k w) ws /\
    (forall k f g, nth_error files k = Some f -> (file_start files k <= g < file_start files k + f_length f)%N ->
       (i * plen <= g < i * plen + plen)%N ->
       exists w, In w ws /\ fw_path w = f_path f /\
         (file_start files k + fw_start w <= g < file_start files k + fw_start w + lenN (fw_piece w))%N) /\
    (forall k f, nth_error files k = Some f -> meets files k f (i * plen) (lenN (torrent_piece T plen i)) ->
       exists w, In w ws /\ fw_path w = f_path f) /\
    (forall w, In w ws -> exists k f, nth_error files k = Some f /\ fw_path w = f_path f /\
       meets files k f (i * plen) (lenN (torrent_piece T plen i))).
Proof.
  intros p files T plen i TL T64 P H. destruct (piece_length T plen i P H) as [O L].
  assert (NE : torrent_piece T plen i <> []).
  { intros E. rewrite E in L. cbn in L. lia. }
  destruct (c24_split p files (torrent_piece T plen i) i plen NE) as (ws & E1 & E2 & _); try lia.
  exists ws. split; [auto|].
  assert (IN : forall w, In w ws <-> exists v, In v (split_piece files 0 (i * plen) (torrent_piece T plen i)) /\ In w ws /\ v = view w).
  { intros w. split; [|tauto || (intros (v & _ & I & _); auto)]. intros I. exists (view w). split; [|auto].
    rewrite <- E2. apply in_map. auto. }
  split; [|split; [|split]].
  - apply Forall_forall. intros w I. apply (in_map view) in I. rewrite E2 in I. unfold view in I.
    apply split_in_gen in I as (k & f & Hk & Pf & B & Lo & D). rewrite N.add_0_l in Lo, D.
    exists k, f. split; [auto|]. split; [auto|]. split; [auto|].
    intros j Hj. rewrite D at 1. rewrite nth_error_range by (unfold lenN; lia).
    unfold torrent_piece. rewrite nth_error_range.
    + f_equal. lia.
    + assert (LL : (List.length (fw_piece w) <= List.length (torrent_piece T plen i) - N.to_nat (file_start files k + fw_start w - i * plen))%nat).
      { rewrite D at 1. unfold range. rewrite firstn_length, skipn_length. lia. }
      unfold lenN in L. lia.
  - intros k f g Hk Rg Ig.
    pose proof (file_start_le files k f Hk).
    destruct (split_cover_gen files 0 (i * plen) (torrent_piece T plen i) k f g Hk) as (pos & data & I & C); try lia.
    rewrite <- E2 in I. apply in_map_iff in I as (w & V & I). unfold view in V. injection V as V1 V2 V3.
    exists w. subst pos data. split; [auto|]. split; [auto|]. lia.
  - intros k f Hk M. unfold meets in M.
    destruct (split_meets files 0 (i * plen) (torrent_piece T plen i) k f Hk ltac:(lia)) as (pos & data & I).
    rewrite <- E2 in I. apply in_map_iff in I as (w & V & I). unfold view in V. injection V as V1 V2 V3. eauto.
  - intros w I. apply (in_map view) in I. rewrite E2 in I. unfold view in I.
    apply split_meets_conv in I as (k & f & Hk & Pf & M). exists k, f. unfold meets. repeat split; auto; lia.
Qed.

Lemma run_right : forall cwd files T ws d, total_length files = lenN T -> good_files files -> disk_ready cwd files d ->
  Forall (fun w => exists k, right_write files T k w) ws ->
  exists d2, run_writers cwd d ws = Ret d2 /\ disk_ready cwd files d2 /\
    (forall g, holds cwd files T d g -> holds cwd files T d2 g) /\
    (forall g, (forall k f, nth_error files k = Some f -> (file_start files k <= g < file_start files k + f_length f)%N ->
       exists w, In w ws /\ fw_path w = f_path f /\
       (file_start files k + fw_start w <= g < file_start files k + fw_start w + lenN (fw_piece w))%N) ->
       holds cwd files T d2 g) /\
    (forall l, unrelated cwd files l -> d2 l = d l) /\
    (forall k f, nth_error files k = Some f ->
       (d2 (cwd ++ f_path f) = None <-> d (cwd ++ f_path f) = None /\ forall w, In w ws -> fw_path w <> f_path f)).
Proof.
  intros cwd files T. 
  assert (ONE : forall ws d, total_length files = lenN T -> good_files files -> disk_ready cwd files d ->
    Forall (fun w => exists k, right_write files T k w) ws ->
    exists d2, run_writers cwd d ws = Ret d2 /\ disk_ready cwd files d2 /\
    (forall g, holds cwd files T d g -> holds cwd files T d2 g) /\
    (forall g k f w, nth_error files k = Some f -> In w ws -> fw_path w = f_path f ->
       (file_start files k + fw_start w <= g < file_start files k + fw_start w + lenN (fw_piece w))%N ->
       exists c, d2 (cwd ++ f_path f) = Some (NFile c) /\
         nth_error c (N.to_nat (g - file_start files k)) = nth_error T (N.to_nat g)) /\
    (forall l, unrelated cwd files l -> d2 l = d l) /\
    (forall k f, nth_error files k = Some f ->
       (d2 (cwd ++ f_path f) = None <-> d (cwd ++ f_path f) = None /\ forall w, In w ws -> fw_path w <> f_path f))).
  2:{ intros ws d TL G R F. destruct (ONE ws d TL G R F) as (d2 & E & A & B & C & D & U). exists d2.
      split; [auto|]. split; [auto|]. split; [auto|]. split; [|auto].
      intros g Hg k f Hk Rg. destruct (Hg k f Hk Rg) as (w & I & P & Q). eauto. }
  induction ws as [|w t IH]; intros d TL G R F.
  - exists d. cbn. split; [auto|]. split; [auto|]. split; [auto|]. split; [easy|]. split; [auto|].
    intros k f Hk. split; [intros; split; auto|tauto].
  - inversion F as [|? ? [k RW] F']; subst.
    destruct (write_right (List.length (fw_piece w)) cwd files T k w d TL G R RW) as (d1 & E1 & A1 & B1 & C1 & D1 & U1).
    destruct (IH d1 TL G A1 F') as (d2 & E2 & A2 & B2 & C2 & D2 & U2).
    destruct RW as (fk & Hk & Pk & Bk & RW).
    exists d2. cbn [run_writers]. unfold write_to_filesystem. rewrite E1. cbn [obind].
    split; [auto|]. split; [auto|]. split; [auto|]. split; [|split].
    + intros g k' f w' Hk' [<-|I] Pw Rg.
      * assert (k' = k) by (eapply file_index_unique; eauto; congruence). subst k'.
        rewrite Hk in Hk'. injection Hk' as <-.
        assert (HH : holds cwd files T d1 g).
        { intros k2 f2 Hk2 R2. destruct (Nat.eq_dec k2 k) as [->|NN].
          - rewrite Hk in Hk2. injection Hk2 as <-. eapply C1; eauto.
          - exfalso.
            (* two different files cannot both contain g *)
            assert (DJ : forall a b fa fb, nth_error files a = Some fa -> nth_error files b = Some fb -> (a < b)%nat ->
               (file_start files a + f_length fa <= file_start files b)%N).
            { intros a b fa fb Ha Hb Lt. unfold file_start.
              clear - Ha Lt. revert files a Ha Lt. induction b as [|b IH]; intros files a Ha Lt; [lia|].
              destruct files as [|x files]; [destruct a; discriminate|]. destruct a as [|a].
              - cbn in Ha. injection Ha as ->. cbn [firstn total_length]. lia.
              - cbn [nth_error] in Ha. cbn [firstn total_length]. specialize (IH files a Ha ltac:(lia)). lia. }
            destruct (Nat.lt_gt_cases k2 k) as [LT _]. destruct (LT NN) as [LT'|LT'].
            + specialize (DJ _ _ _ _ Hk2 Hk LT'). lia.
            + specialize (DJ _ _ _ _ Hk Hk2 LT'). lia. }
        apply B2 in HH. apply (HH k fk Hk). lia.
      * eapply C2; eauto.
    + intros l U. rewrite D2, D1; auto.
    + intros k' f Hk'. rewrite U2, U1 by eauto. cbn [In]. split.
      * intros [[X Y] Z]. split; [auto|]. intros w' [<-|I]; [|auto]. intros Q. apply Y.
        eapply file_index_unique; eauto. congruence.
      * intros [X Y]. split; [split; [auto|]|intros w' I; apply Y; auto].
        intros ->. rewrite Hk in Hk'. injection Hk' as <-. apply (Y w); auto.
Qed.

Lemma write_piece_right : forall p cwd files plen T i d, total_length files = lenN T -> (lenN T < 2 ^ 64)%N -> (0 < plen)%N ->
  good_files files -> disk_ready cwd files d -> (i < piece_count (lenN T) plen)%N ->
  exists d2, write p cwd d (torrent_piece T plen i) i files plen = Ret d2 /\ disk_ready cwd files d2 /\
    (forall g, holds cwd files T d g \/ (i * plen <= g < (i + 1) * plen)%N -> holds cwd files T d2 g) /\
    (forall l, unrelated cwd files l -> d2 l = d l) /\
    (forall k f, nth_error files k = Some f ->
       (d2 (cwd ++ f_path f) = None <-> d (cwd ++ f_path f) = None /\
          ~ meets files k f (i * plen) (lenN (torrent_piece T plen i)))).
Proof.
  intros p cwd files plen T i d TL T64 P G R H.
  destruct (writers_right p files T plen i TL T64 P H) as (ws & E & F & C & M1 & M2).
  destruct (run_right cwd files T ws d TL G R F) as (d2 & E2 & A & B & CC & U & Pr).
  exists d2. unfold write. rewrite E. cbn [obind]. split; [auto|]. split; [auto|]. split; [|split; [auto|]].
  - intros g [Hg|Hg]; [auto|]. apply CC. intros k f Hk Rg. apply (C k f g Hk Rg). lia.
  - intros k f Hk. rewrite (Pr k f Hk). split; intros [X Y]; (split; [auto|]).
    + intros M. destruct (M1 k f Hk M) as (w & I & Q). apply (Y w I Q).
    + intros w I Q. destruct (M2 w I) as (k' & f' & Hk' & Q' & M).
      assert (k' = k) by (eapply file_index_unique; eauto; congruence). subst k'.
      rewrite Hk in Hk'. injection Hk' as <-. auto.
Qed.

Lemma write_pieces_right : forall p cwd files plen T order d, total_length files = lenN T -> (lenN T < 2 ^ 64)%N -> (0 < plen)%N ->
  good_files files -> disk_ready cwd files d -> Forall (fun i => i < piece_count (lenN T) plen)%N order ->
  exists d2, write_pieces p cwd files plen T order d = Ret d2 /\ disk_ready cwd files d2 /\
    (forall g, holds cwd files T d g \/ In (g / plen)%N order -> holds cwd files T d2 g) /\
    (forall l, unrelated cwd files l -> d2 l = d l) /\
    (forall k f, nth_error files k = Some f ->
       (d2 (cwd ++ f_path f) = None <-> d (cwd ++ f_path f) = None /\
          forall i, In i order -> ~ meets files k f (i * plen) (lenN (torrent_piece T plen i)))).
Proof.
  intros p cwd files plen T. induction order as [|i t IH]; intros d TL T64 P G R F.
  - exists d. cbn. split; [auto|]. split; [auto|]. split; [tauto|]. split; [auto|]. intros; split; [|tauto].
    intros; split; auto.
  - inversion F as [|? ? Hi F']; subst.
    destruct (write_piece_right p cwd files plen T i d TL T64 P G R Hi) as (d1 & E1 & A1 & B1 & C1 & D1).
    destruct (IH d1 TL T64 P G A1 F') as (d2 & E2 & A2 & B2 & C2 & D2).
    exists d2. cbn [write_pieces]. rewrite E1. cbn [obind]. split; [auto|]. split; [auto|]. split; [|split].
    + intros g [Hg|[Hg|Hg]]; apply B2; [left; apply B1; auto|left; apply B1; right|right; auto].
      pose proof (N.mul_div_le g plen ltac:(lia)). pose proof (N.mul_succ_div_gt g plen ltac:(lia)). nia.
    + intros l U. rewrite C2, C1; auto.
    + intros k f Hk. rewrite D2, D1 by eauto. cbn [In]. split.
      * intros [[X Y] Z]. split; [auto|]. intros j [<-|I]; auto.
      * intros [X Y]. split; [split; auto|auto].
Qed.

Lemma nth_ext_error : forall A (a b : list A), (forall j, nth_error a j = nth_error b j) -> a = b.
Proof.
  induction a as [|x a IH]; intros [|y b] H; [auto|specialize (H 0%nat); discriminate|specialize (H 0%nat); discriminate|].
  f_equal; [specialize (H 0%nat); cbn in H; congruence|]. apply IH. intros j. apply (H (S j)).
Qed.

Lemma all_held : forall cwd files T d k f, total_length files = lenN T -> disk_ready cwd files d ->
  nth_error files k = Some f -> (0 < f_length f)%N ->
  (forall g, (g < lenN T)%N -> holds cwd files T d g) ->
  d (cwd ++ f_path f) = Some (NFile (file_content T files k f)).
Proof.
  intros cwd files T d k f TL R Hk L H.
  pose proof (file_start_le files k f Hk) as FL.
  destruct (R f (nth_error_In _ _ Hk)) as [_ X].
  destruct (H (file_start files k) ltac:(lia) k f Hk ltac:(lia)) as (c & Ec & _).
  destruct X as [X|(c' & X & Lc)]; [congruence|]. assert (c' = c) by congruence. subst c'.
  rewrite Ec. do 2 f_equal. apply nth_ext_error. intros j. unfold file_content.
  destruct (N.lt_ge_cases (N.of_nat j) (f_length f)) as [J|J].
  - rewrite nth_error_range by lia.
    destruct (H (file_start files k + N.of_nat j)%N ltac:(lia) k f Hk ltac:(lia)) as (c2 & Ec2 & En).
    assert (c2 = c) by congruence. subst c2.
    replace (N.to_nat (file_start files k + N.of_nat j - file_start files k)) with j in En by lia.
    rewrite En. f_equal. lia.
  - rewrite !(proj2 (nth_error_None _ _)); auto; [|lia]. unfold range. rewrite firstn_length. lia.
Qed.

Lemma index_in_range : forall total plen g, (0 < plen)%N -> (g < total)%N -> (g / plen < piece_count total plen)%N.
Proof.
  intros total plen g P H. unfold piece_count.
  pose proof (N.mul_div_le g plen ltac:(lia)). pose proof (N.mul_succ_div_gt (total + plen - 1) plen ltac:(lia)). nia.
Qed.

Lemma c25 : forall p cwd files plen T order d, total_length files = lenN T -> (lenN T < 2 ^ 64)%N -> (0 < plen)%N ->
  good_files files -> disk_ready cwd files d ->
  Forall (fun i => i < piece_count (lenN T) plen)%N order ->
  (forall i, (i < piece_count (lenN T) plen)%N -> In i order) ->
  exists d2, write_pieces p cwd files plen T order d = Ret d2 /\
    (forall k f, nth_error files k = Some f -> (0 < f_length f)%N ->
       d2 (cwd ++ f_path f) = Some (NFile (file_content T files k f))) /\
    (forall l, unrelated cwd files l -> d2 l = d l).
Proof.
  intros p cwd files plen T order d TL T64 P G R F ALL.
  destruct (write_pieces_right p cwd files plen T order d TL T64 P G R F) as (d2 & E & A & B & C & _).
  exists d2. split; [auto|]. split; [|auto]. intros k f Hk L. apply all_held; auto.
  intros g Hg. apply B. right. apply ALL. apply index_in_range; auto.
Qed.

Lemma c25_empty : forall p cwd files plen T order d k f, total_length files = lenN T -> (lenN T < 2 ^ 64)%N -> (0 < plen)%N ->
  good_files files -> disk_ready cwd files d ->
  Forall (fun i => i < piece_count (lenN T) plen)%N order ->
  (forall i, (i < piece_count (lenN T) plen)%N -> In i order) ->
  nth_error files k = Some f -> f_length f = 0%N -> d (cwd ++ f_path f) = None ->
  exists d2, write_pieces p cwd files plen T order d = Ret d2 /\
    (d2 (cwd ++ f_path f) = Some (NFile []) <-> (file_start files k mod plen <> 0 /\ file_start files k < lenN T)%N) /\
    (d2 (cwd ++ f_path f) = None <-> ~ (file_start files k mod plen <> 0 /\ file_start files k < lenN T)%N).
Proof.
  intros p cwd files plen T order d k f TL T64 P G R F ALL Hk L ABS.
  destruct (write_pieces_right p cwd files plen T order d TL T64 P G R F) as (d2 & E & A & B & C & D).
  exists d2. split; [auto|].
  assert (X : d2 (cwd ++ f_path f) = None <-> ~ (file_start files k mod plen <> 0 /\ file_start files k < lenN T)%N).
  { rewrite (D k f Hk). set (s := file_start files k) in *. split.
    - intros [_ Y] [M S]. apply (Y (s / plen)%N).
      + apply ALL. apply index_in_range; auto.
      + pose proof (N.div_mod s plen ltac:(lia)). unfold meets. fold s.
        destruct (piece_length T plen (s / plen) P) as [_ LP]; [apply index_in_range; auto|].
        rewrite LP, L. pose proof (N.mod_lt s plen ltac:(lia)). nia.
    - intros N. split; [auto|]. intros i I M. apply N. unfold meets in M. fold s in M. rewrite L in M.
      rewrite Forall_forall in F. destruct (piece_length T plen i P (F i I)) as [O LP]. rewrite LP in M.
      split; [|lia]. intros Z. apply N.mod_divide in Z as [z Z]; [|lia].
      assert (i < z /\ z < i + 1)%N by nia. lia. }
  split; [|exact X].
  destruct (A f (nth_error_In _ _ Hk)) as [_ Y]. split.
  - intros Q. destruct (N.eq_dec (file_start files k mod plen) 0) as [Z|Z].
    + exfalso. assert (N : d2 (cwd ++ f_path f) = None) by (apply X; intros [? _]; auto). congruence.
    + destruct (N.lt_ge_cases (file_start files k) (lenN T)) as [S|S]; [auto|].
      exfalso. assert (N : d2 (cwd ++ f_path f) = None) by (apply X; lia). congruence.
  - intros Q. destruct Y as [Y|(c & Y & Lc)].
    + exfalso. apply X in Y. auto.
    + rewrite L in Lc. destruct c; [auto|cbn in Lc; lia].
Qed.

Lemma c26_ready : forall p cwd files plen T d1 d2, total_length files = lenN T -> (lenN T < 2 ^ 64)%N -> (0 < plen)%N ->
  good_files files -> disk_ready cwd files d1 -> interrupted p cwd files plen T d1 d2 ->
  disk_ready cwd files d2 /\ (forall g, holds cwd files T d1 g -> holds cwd files T d2 g) /\
  (forall l, unrelated cwd files l -> d2 l = d1 l).
Proof.
  intros p cwd files plen T d1 d2 TL T64 P G R H. induction H as [d|d1 d2 d3 i ws w n H IH Hi E I W|d1 d2 f q r H IH Hf E Nq Nr N].
  - auto.
  - destruct (IH R) as (R2 & H2 & U2).
    destruct (writers_right p files T plen i TL T64 P Hi) as (ws' & E' & F & _).
    assert (ws' = ws) by congruence. subst ws'. rewrite Forall_forall in F. destruct (F w I) as [k RW].
    destruct (write_right n cwd files T k w d2 TL G R2 RW) as (d3' & W' & A & B & _ & D & _).
    assert (d3' = d3) by congruence. subst d3'.
    split; [auto|]. split; [auto|]. intros l U. rewrite D; auto.
  - destruct (IH R) as (R2 & H2 & U2).
    assert (NF : forall g, In g files -> cwd ++ q <> cwd ++ f_path g).
    { intros g Hg Z. apply app_inv_head in Z. apply In_nth_error in Hf as [k Hk]. apply In_nth_error in Hg as [k' Hk'].
      destruct G as [_ G]. destruct (Nat.eq_dec k' k) as [->|NN].
      - rewrite Hk in Hk'. injection Hk' as <-. rewrite Z in E. rewrite <- (app_nil_r (f_path f)) in E at 1.
        apply app_inv_head in E. auto.
      - apply (G k' k g f Hk' Hk NN). exists r. congruence. }
    split; [|split].
    + intros g Hg. destruct (R2 g Hg) as [Dg Fg]. split.
      * intros q' r' E' Nq' Nr'. destruct (list_eq_dec (list_eq_dec N.eq_dec) (cwd ++ q) (cwd ++ q')) as [Z|Z].
        -- right. rewrite Z. apply fs_set_same.
        -- rewrite fs_set_other by auto. eauto.
      * rewrite fs_set_other by auto. auto.
    + intros g Hg k f' Hk Rg. rewrite fs_set_other by (apply NF; eapply nth_error_In; eauto). apply (H2 g Hg k f' Hk Rg).
    + intros l U. rewrite fs_set_other; [auto|]. intros Z. apply (U f q r); auto.
Qed.

Lemma c26 : forall p p' cwd files plen T order d1 d2, total_length files = lenN T -> (lenN T < 2 ^ 64)%N -> (0 < plen)%N ->
  good_files files -> disk_ready cwd files d1 -> interrupted p cwd files plen T d1 d2 ->
  Forall (fun i => i < piece_count (lenN T) plen)%N order ->
  (forall i, (i < piece_count (lenN T) plen)%N -> In i order) ->
  exists d3, write_pieces p' cwd files plen T order d2 = Ret d3 /\
    (forall k f, nth_error files k = Some f -> (0 < f_length f)%N ->
       d3 (cwd ++ f_path f) = Some (NFile (file_content T files k f))) /\
    (forall l, unrelated cwd files l -> d3 l = d1 l).
Proof.
  intros p p' cwd files plen T order d1 d2 TL T64 P G R I F ALL.
  destruct (c26_ready p cwd files plen T d1 d2 TL T64 P G R I) as (R2 & _ & U).
  destruct (c25 p' cwd files plen T order d2 TL T64 P G R2 F ALL) as (d3 & E & A & B).
  exists d3. split; [auto|]. split; [auto|]. intros l Hl. rewrite B, U; auto.
Qed.

Lemma c24 : forall p files piece idx plen,
  piece <> [] -> (total_length files < 2 ^ 64)%N -> (idx * plen + lenN piece < 2 ^ 64)%N ->
  exists ws, get_file_writers p files piece idx plen = Ret ws /\
    map (fun w => (fw_path w, fw_start w, fw_piece w)) ws = split_piece files 0 (idx * plen) piece /\
    List.concat (map fw_piece ws) = range 0 (total_length files - idx * plen) piece /\
    Forall (fun w => fw_end w = fw_start w + lenN (fw_piece w))%N ws.
Proof.
  intros p files piece idx plen NE T O. destruct (c24_split p files piece idx plen NE T O) as (ws & E & V & F).
  exists ws. split; [auto|]. split; [exact V|]. split; [|auto].
  rewrite <- c24_concat, <- V, map_map. reflexivity.
Qed.

Lemma c24_placement : forall p files piece idx plen ws,
  piece <> [] -> (total_length files < 2 ^ 64)%N -> (idx * plen + lenN piece < 2 ^ 64)%N ->
  get_file_writers p files piece idx plen = Ret ws ->
  (forall w, In w ws -> exists k f, nth_error files k = Some f /\ fw_path w = f_path f /\
     (fw_start w + lenN (fw_piece w) <= f_length f)%N /\
     forall j, (j < List.length (fw_piece w))%nat ->
       (idx * plen <= file_start files k + fw_start w + N.of_nat j)%N /\
       nth_error (fw_piece w) j
       = nth_error piece (N.to_nat (file_start files k + fw_start w + N.of_nat j - idx * plen))) /\
  (forall g k f, nth_error files k = Some f -> (file_start files k <= g < file_start files k + f_length f)%N ->
     (idx * plen <= g < idx * plen + lenN piece)%N ->
     exists w, In w ws /\ fw_path w = f_path f /\
       (fw_start w <= g - file_start files k < fw_start w + lenN (fw_piece w))%N).
Proof.
  intros p files piece idx plen ws NE T O E.
  destruct (c24_split p files piece idx plen NE T O) as (ws' & E' & V & _).
  assert (ws' = ws) by congruence. subst ws'. split.
  - intros w I. apply (in_map view) in I. rewrite V in I. unfold view in I.
    apply split_in_gen in I as (k & f & Hk & P & B & Lo & D). rewrite N.add_0_l in Lo, D.
    exists k, f. split; [auto|]. split; [auto|]. split; [auto|]. intros j Hj. split; [lia|].
    rewrite D at 1. rewrite nth_error_range by (unfold lenN; lia). f_equal. lia.
  - intros g k f Hk Rg Ig.
    destruct (split_cover_gen files 0 (idx * plen) piece k f g Hk ltac:(lia) Ig) as (pos & data & I & C).
    rewrite <- V in I. apply in_map_iff in I as (w & W & I). unfold view in W. injection W as W1 W2 W3. subst pos data.
    exists w. rewrite N.add_0_l in C. auto.
Qed.

Lemma c24_outside : forall p files piece idx plen, (total_length files < 2 ^ 64)%N -> (idx * plen < 2 ^ 64)%N ->
  (total_length files <= idx * plen)%N -> get_file_writers p files piece idx plen = Ret [].
Proof.
  intros p files piece idx plen T O L. unfold get_file_writers, file_parser_new. rewrite umul_ok by lia. cbn [obind].
  apply (loop_past p piece files _ [] 0%N (idx * plen)%N); auto.
Qed.

Lemma c27 : forall acc cwd d w, sane_path (fw_path w) ->
  (exists d2, write_to_filesystem_n acc cwd d w = Ret d2 /\
     forall l, d2 l <> d l -> exists q r, fw_path w = q ++ r /\ q <> [] /\ l = cwd ++ q /\
       (r <> [] -> d l = None /\ d2 l = Some NDir) /\
       (r = [] -> exists c', d2 l = Some (NFile c')))
  \/ write_to_filesystem_n acc cwd d w = Panic.
Proof.
  intros acc cwd d w S.
  destruct (write_to_filesystem_n acc cwd d w) as [d2| |] eqn:E.
  - left. exists d2. split; [auto|]. destruct (wfs_spec _ _ _ _ _ S E) as (D0 & ND & S1 & S2 & S3).
    intros l Hl. destruct S as [NE _].
    destruct (list_eq_dec (list_eq_dec N.eq_dec) l (cwd ++ fw_path w)) as [->|N].
    { exists (fw_path w), []. rewrite app_nil_r. repeat split; auto; try congruence. eauto. }
    destruct (in_dec (list_eq_dec (list_eq_dec N.eq_dec)) l
       (map (fun m => cwd ++ firstn (S m) (fw_path w)) (seq 0 (List.length (fw_path w) - 1)))) as [I|NI].
    + apply in_map_iff in I as (m & <- & I). apply in_seq in I.
      assert (R : skipn (S m) (fw_path w) <> []).
      { intros Z. apply (f_equal (@List.length bytes)) in Z. rewrite skipn_length in Z. cbn in Z. lia. }
      assert (Q : firstn (S m) (fw_path w) <> []) by (destruct (fw_path w); [congruence|discriminate]).
      assert (EE : fw_path w = firstn (S m) (fw_path w) ++ skipn (S m) (fw_path w)) by (symmetry; apply firstn_skipn).
      exists (firstn (S m) (fw_path w)), (skipn (S m) (fw_path w)).
      split; [auto|]. split; [auto|]. split; [auto|]. split; [|congruence]. intros _.
      rewrite (S1 _ _ EE Q R) in Hl |- *. split; [|auto]. destruct (D0 _ _ EE Q R); congruence.
    + exfalso. apply Hl. apply S3; [auto|]. intros q r Eq Nq Nr ->. apply NI. apply in_map_iff.
      exists (List.length q - 1)%nat. split.
      * f_equal. replace (S (List.length q - 1)) with (List.length q) by (destruct q; [congruence|cbn; lia]).
        rewrite Eq, firstn_app, firstn_all, Nat.sub_diag, firstn_O. apply app_nil_r.
      * apply in_seq. rewrite Eq, app_length. destruct q; [congruence|]. destruct r; [congruence|]. cbn. lia.
  - auto.
  - exfalso. rewrite wfs_unfold in E by auto. destruct (walk_create _ _ _) as [[? ?]|]; [|discriminate].
    destruct (f _) as [[|]|]; discriminate.
Qed.

Lemma c27_success : forall acc cwd d w, sane_path (fw_path w) ->
  ((exists d2, write_to_filesystem_n acc cwd d w = Ret d2) <->
   (forall q r, fw_path w = q ++ r -> q <> [] -> r <> [] -> d (cwd ++ q) = None \/ d (cwd ++ q) = Some NDir) /\
   d (cwd ++ fw_path w) <> Some NDir).
Proof.
  intros acc cwd d w S. split.
  - intros [d2 E]. destruct (wfs_spec _ _ _ _ _ S E) as (D0 & ND & _). auto.
  - intros [D ND]. apply wfs_succeeds; auto.
Qed.
