(** ProofTorrent: info, file, magnet *)
From Coq Require Import Permutation Sorted.
From Verif Require Import Base Utf8 SpecBencode ProofBase ModelBencode ProofBencode ProofBencode2
  ModelTorrent SpecTorrent.

(** ** encodings are the canonical ones *)
Lemma benc_nonnil : forall v, benc v <> [].
Proof.
  intros v. destruct v as [n|s|l|d]; cbn [benc]; try discriminate.
  unfold bstr. destruct (decimal_head (N.of_nat (List.length s))) as (d & t & E & _). rewrite E. discriminate.
Qed.

Lemma entry_some : forall k v enc, ascii k -> k <> [] -> enc = benc v ->
  encode_dict_entry k enc = bstr k ++ benc v.
Proof.
  intros k v enc A Nk ->. unfold encode_dict_entry.
  destruct (benc v) eqn:E; [now apply benc_nonnil in E|].
  destruct k; [congruence|]. now rewrite enc_string_ascii.
Qed.

Ltac key_ascii := solve [repeat constructor | discriminate].

Lemma enc_file_canonical : forall f, plain_file f -> enc_file f = benc (file_value f).
Proof.
  intros f [P L]. unfold enc_file, file_value. cbn [benc map fst snd List.concat].
  rewrite (entry_some _ (BInt (f_length f))) by (try key_ascii; apply enc_usize_canonical).
  rewrite (entry_some _ (BList (map BStr (f_path f)))).
  - cbn [benc]. rewrite <- !app_assoc. reflexivity.
  - key_ascii.
  - key_ascii.
  - apply enc_list_canonical. intros s Hs. rewrite Forall_forall in P.
    destruct (P s Hs) as (A & _). now apply enc_string_ascii.
Qed.

Lemma enc_info_canonical : forall i, plain_info i -> enc_info i = benc (info_value i).
Proof.
  intros i (F & L & (Na & Nn & Nl) & PL & Pn & Pl). unfold enc_info, info_value.
  rewrite (entry_some (s2b "name") (BStr (i_name i))) by (try key_ascii; now apply enc_string_ascii).
  rewrite (entry_some (s2b "piece length") (BInt (i_piece_length i))) by (try key_ascii; apply enc_usize_canonical).
  rewrite (entry_some (s2b "pieces") (BStr (i_pieces i))) by (try key_ascii; apply enc_bytes_canonical).
  assert (Ef : encode_dict_entry (s2b "files") (enc_option (enc_list enc_file) (i_files i))
    = match i_files i with Some fs => bstr (s2b "files") ++ benc (BList (map file_value fs)) | None => [] end).
  { destruct (i_files i) as [fs|] eqn:E; [|reflexivity]. cbn [enc_option].
    apply entry_some; try key_ascii. apply enc_list_canonical. intros f Hf.
    apply enc_file_canonical. specialize (F fs eq_refl). rewrite Forall_forall in F. auto. }
  assert (El : encode_dict_entry (s2b "length") (enc_option enc_usize (i_length i))
    = match i_length i with Some n => bstr (s2b "length") ++ benc (BInt n) | None => [] end).
  { destruct (i_length i) as [n|] eqn:E; [|reflexivity]. cbn [enc_option].
    apply entry_some; try key_ascii. apply enc_usize_canonical. }
  rewrite Ef, El. clear.
  destruct (i_files i), (i_length i); cbn [app map fst snd benc List.concat];
    rewrite <- ?app_assoc; cbn [app]; rewrite <- ?app_assoc; reflexivity.
Qed.

(** ** what decoding the canonical metadata gives *)
Lemma text_ascii : forall s, ascii s -> text s.
Proof. exact ascii_utf8. Qed.

Ltac key_ok := split; [reflexivity|vm_compute; reflexivity].

Lemma file_value_ok : forall f, plain_file f -> decodable text (file_value f) /\ distinct_keys (file_value f).
Proof.
  intros f [P L]. split.
  - constructor; repeat constructor; cbn [fst snd]; auto; try reflexivity.
    rewrite Forall_map. eapply Forall_impl; [|exact P]. intros s (A & Ns & Ls). constructor; auto.
  - constructor.
    + cbn [map fst]. constructor; [cbn; intuition discriminate|]. constructor; [cbn; auto|constructor].
    + repeat constructor. rewrite Forall_map. apply Forall_forall. intros; constructor.
Qed.


Lemma info_value_ok : forall i, plain_info i -> decodable text (info_value i) /\ distinct_keys (info_value i).
Proof.
  intros i (F & L & (Na & Nn & Nl) & PL & Pn & Pl). unfold info_value. split.
  - constructor.
    + destruct (i_files i), (i_length i); cbn [app]; repeat (constructor; [key_ok|]); constructor.
    + apply Forall_app. split; [|apply Forall_app; split].
      * destruct (i_files i) as [fs|]; [|constructor]. constructor; [|constructor]. cbn [snd].
        constructor. rewrite Forall_map. eapply Forall_impl; [|apply (F fs eq_refl)].
        intros f Hf. now apply file_value_ok.
      * destruct (i_length i) as [n|]; [|constructor]. constructor; [|constructor]. cbn [snd].
        constructor. auto.
      * repeat (constructor; cbn [snd]; auto).
  - constructor.
    + destruct (i_files i), (i_length i); cbn [app map fst];
        repeat (constructor; [cbn; intuition discriminate|]); constructor.
    + apply Forall_app. split; [|apply Forall_app; split].
      * destruct (i_files i) as [fs|]; [|constructor]. constructor; [|constructor]. cbn [snd].
        constructor. rewrite Forall_map. eapply Forall_impl; [|apply (F fs eq_refl)].
        intros f Hf. now apply file_value_ok.
      * destruct (i_length i) as [n|]; [|constructor]. constructor; [|constructor]. constructor.
      * repeat constructor.
Qed.

Lemma path_components_text : forall l, Forall text l ->
  path_components (map MString l) = Ok l.
Proof.
  induction l as [|s l IH]; intros H; [reflexivity|]. inversion H; subst. cbn [map path_components].
  cbn [get_string_content]. unfold text in H2. rewrite H2. cbn [rbind]. now rewrite IH.
Qed.

Lemma file_from_value : forall f, plain_file f -> file_from_metainfo (as_metainfo (file_value f)) = Ok f.
Proof.
  intros f [P L]. unfold file_from_metainfo, file_value. cbn [as_metainfo map fst snd].
  rewrite map_map. unfold get_integer_from_dict, get_list_from_dict. cbn [get_dict_content rbind].
  cbn [hm_get]. change (bytes_eqb (s2b "length") (s2b "length")) with true.
  change (bytes_eqb (s2b "path") (s2b "length")) with false.
  change (bytes_eqb (s2b "path") (s2b "path")) with true.
  cbn [get_integer_content get_list_content rbind as_metainfo].
  rewrite path_components_text.
  - cbn [rbind]. destruct f; reflexivity.
  - eapply Forall_impl; [|exact P]. intros s (A & _). now apply text_ascii.
Qed.

Lemma flat_files_values : forall fs, Forall plain_file fs ->
  flat_files (map as_metainfo (map file_value fs)) = fs.
Proof.
  induction fs as [|f fs IH]; intros H; [reflexivity|]. inversion H; subst.
  cbn [map flat_files flat_map]. rewrite file_from_value by auto. cbn [app]. f_equal. now apply IH.
Qed.

Lemma info_from_value : forall i, plain_info i ->
  info_from_metainfo (as_metainfo (info_value i)) = Ok i.
Proof.
  intros i (F & L & (Na & Nn & Nl) & PL & Pn & Pl). unfold info_value. cbn [as_metainfo].
  rewrite !map_app. unfold info_from_metainfo.
  unfold get_bytes_from_dict, get_integer_from_dict, get_string_from_dict, get_list_from_dict.
  cbn [get_dict_content rbind].
  assert (U : utf8_valid (i_name i) = true) by now apply ascii_utf8.
  destruct (i_files i) as [fs|] eqn:Ef, (i_length i) as [n|] eqn:El; cbn [map app fst snd as_metainfo].
  all: repeat match goal with |- context [hm_get ((?k, ?v) :: ?t) ?k'] =>
    change (hm_get ((k, v) :: t) k') with (if bytes_eqb k' k then Some v else hm_get t k');
    let b := eval vm_compute in (bytes_eqb k' k) in change (bytes_eqb k' k) with b; cbv iota
  end.
  all: cbn [hm_get get_bytes_content get_integer_content get_string_content get_list_content ie_meta rbind res_ok option_map].
  all: rewrite U; cbn [ie_meta rbind].
  all: try rewrite flat_files_values by (now apply F).
  all: destruct i as [fi le na pl pi]; cbn in *; congruence.
Qed.

Lemma c09 : forall i, plain_info i -> info_from_bytes (enc_info i) = Ret (Ok i).
Proof.
  intros i P. destruct (info_value_ok i P) as [D K].
  unfold info_from_bytes. rewrite enc_info_canonical by auto.
  rewrite <- (app_nil_r (benc _)), c01 by auto. cbn [obind]. now rewrite info_from_value.
Qed.

(** ** C10 *)
Lemma sorted_nodup : forall ks, StronglySorted lex_lt ks -> NoDup ks.
Proof.
  induction ks as [|k ks IH]; intros S; constructor; inversion S; subst; auto.
  intros Hi. rewrite Forall_forall in H2. specialize (H2 k Hi). now apply lex_lt_irrefl in H2.
Qed.

Lemma in_fst_unique : forall V (d : list (bytes * V)) k v w, NoDup (map fst d) ->
  In (k, v) d -> In (k, w) d -> v = w.
Proof.
  induction d as [|[k0 v0] d IH]; intros k v w ND H1 H2; [contradiction|].
  inversion ND; subst. destruct H1 as [E1|H1], H2 as [E2|H2].
  - congruence.
  - injection E1 as -> ->. exfalso. apply H3. apply (in_map fst) in H2. auto.
  - injection E2 as -> ->. exfalso. apply H3. apply (in_map fst) in H1. auto.
  - eauto.
Qed.

Lemma canonical_files : forall vs, Forall canonical_file vs ->
  exists fs, vs = map file_value fs /\ Forall plain_file fs.
Proof.
  induction vs as [|v vs IH]; intros H; [exists []; auto|].
  inversion H; subst. destruct (IH H3) as (fs & -> & Pf).
  destruct H2 as (n & path & -> & Ln & Pp).
  exists ({| f_path := path; f_length := n |} :: fs). split; [reflexivity|]. constructor; auto.
  split; auto.
Qed.

Lemma sorted_same_elements : forall V (a b : list (bytes * V)),
  StronglySorted lex_lt (map fst a) -> StronglySorted lex_lt (map fst b) ->
  (forall x, In x a <-> In x b) -> a = b.
Proof.
  intros V a b Sa Sb H.
  assert (K : forall l : list (bytes * V), StronglySorted lex_lt (map fst l) -> StronglySorted klt l).
  { induction l as [|x l IH]; intros S; constructor; inversion S; subst; auto.
    rewrite Forall_map in H3. auto. }
  apply sorted_unique; auto. apply NoDup_Permutation; auto.
  - apply (NoDup_map_inv fst). now apply sorted_nodup.
  - apply (NoDup_map_inv fst). now apply sorted_nodup.
Qed.

Lemma find_key : forall V (d : list (bytes * V)) k, (exists v, In (k, v) d) \/ ~ In k (map fst d).
Proof.
  induction d as [|[k0 v0] d IH]; intros k; [right; auto|].
  destruct (list_eq_dec N.eq_dec k0 k) as [->|Ne].
  - left. exists v0. cbn. auto.
  - destruct (IH k) as [[v Hv]|Hn].
    + left. exists v. cbn. auto.
    + right. cbn. tauto.
Qed.

Lemma known_sorted_value : forall i, StronglySorted lex_lt
  (map fst ((match i_files i with
          | Some fs => [(s2b "files", BList (map file_value fs))]
          | None => []
          end)
         ++ (match i_length i with Some n => [(s2b "length", BInt n)] | None => [] end)
         ++ [(s2b "name", BStr (i_name i)); (s2b "piece length", BInt (i_piece_length i));
             (s2b "pieces", BStr (i_pieces i))])).
Proof.
  intros i. destruct (i_files i), (i_length i); cbn [app map fst];
  repeat (constructor; [|repeat (constructor; [cbn; intuition lia|]); constructor]); constructor.
Qed.

Lemma canonical_is_value : forall d, canonical_metadata d -> exists i, plain_info i /\ BDict d = info_value i.
Proof.
  intros d [So Kn Fi Le (name & Iname & Pname) (pl & Ipl & Ppl) (pi & Ipi & Npi & Ppi)].
  pose proof (sorted_nodup _ So) as ND.
  assert (Hf : exists ofs : option (list file),
    (forall v, In (s2b "files", v) d <-> exists fs, ofs = Some fs /\ v = BList (map file_value fs)) /\
    (forall fs, ofs = Some fs -> Forall plain_file fs)).
  { destruct (find_key _ d (s2b "files")) as [[v Hv]|Hn].
    - destruct (Fi v Hv) as (vs & -> & Cf). apply canonical_files in Cf as (fs & -> & Pf).
      exists (Some fs). split.
      + intros w. split; intros H.
        * exists fs. split; auto. eapply in_fst_unique; eauto.
        * destruct H as (fs' & E & ->). injection E as ->. auto.
      + intros fs' E. injection E as ->. auto.
    - exists None. split; [|discriminate]. intros w. split; intros H.
      + exfalso. apply Hn. apply (in_map fst) in H. auto.
      + destruct H as (fs & E & _). discriminate. }
  assert (Hl : exists on : option N,
    (forall v, In (s2b "length", v) d <-> exists n, on = Some n /\ v = BInt n) /\
    (forall n, on = Some n -> (n < 2 ^ 64)%N)).
  { destruct (find_key _ d (s2b "length")) as [[v Hv]|Hn].
    - destruct (Le v Hv) as (n & -> & Ln). exists (Some n). split.
      + intros w. split; intros H.
        * exists n. split; auto. eapply in_fst_unique; eauto.
        * destruct H as (n' & E & ->). injection E as ->. auto.
      + intros n' E. injection E as ->. auto.
    - exists None. split; [|discriminate]. intros w. split; intros H.
      + exfalso. apply Hn. apply (in_map fst) in H. auto.
      + destruct H as (n & E & _). discriminate. }
  destruct Hf as (ofs & Hf & Pf). destruct Hl as (on & Hl & Pl).
  exists {| i_files := ofs; i_length := on; i_name := name; i_piece_length := pl; i_pieces := pi |}.
  split; [repeat split; cbn; auto; apply Pname|].
  unfold info_value. f_equal. apply sorted_same_elements; auto.
  - apply known_sorted_value.
  - cbn [i_files i_length i_name i_piece_length i_pieces].
    intros [k v]. rewrite !in_app_iff. split.
    + intros H. pose proof (Kn k (in_map fst _ _ H)) as Hk. cbn in Hk.
      destruct Hk as [<-|[<-|[<-|[<-|[<-|[]]]]]].
      * apply Hf in H as (fs & -> & ->). left. cbn. auto.
      * apply Hl in H as (n & -> & ->). right. left. cbn. auto.
      * right. right. left. f_equal. symmetry. eapply in_fst_unique; eauto.
      * right. right. right. left. f_equal. symmetry. eapply in_fst_unique; eauto.
      * right. right. right. right. left. f_equal. symmetry. eapply in_fst_unique; eauto.
    + intros [H|[H|H]].
      * destruct ofs as [fs|]; [|contradiction]. destruct H as [E|[]]. injection E as <- <-.
        apply Hf. eauto.
      * destruct on as [n|]; [|contradiction]. destruct H as [E|[]]. injection E as <- <-.
        apply Hl. eauto.
      * cbn in H. destruct H as [E|[E|[E|[]]]]; injection E as <- <-; auto.
Qed.

Lemma c10 : forall sha1 d, canonical_metadata d ->
  exists i, info_from_bytes (benc (BDict d)) = Ret (Ok i) /\
            compute_info_hash sha1 i = sha1 (benc (BDict d)).
Proof.
  intros sha1 d C. destruct (canonical_is_value d C) as (i & P & E). exists i.
  rewrite E, <- enc_info_canonical by auto. split; [now apply c09|reflexivity].
Qed.

Lemma as_metainfo_keys : forall d i, as_metainfo (BDict d) = as_metainfo (info_value i) ->
  forall k, In k (map fst d) -> In k known_keys.
Proof.
  intros d i E k Hk. unfold info_value in E. cbn [as_metainfo] in E. injection E as E.
  apply (f_equal (map fst)) in E. rewrite !map_map in E. cbn [fst] in E.
  change (map (fun x : bytes * bval => fst x) d) with (map fst d) in E. rewrite E in Hk. clear E.
  destruct (i_files i), (i_length i); cbn [app map fst In] in Hk; unfold known_keys; cbn [In];
    intuition.
Qed.

Lemma c10_extra : forall d i k, decodable text (BDict d) -> distinct_keys (BDict d) ->
  In k (map fst d) -> ~ In k known_keys -> plain_info i -> 
  info_from_bytes (benc (BDict d)) = Ret (Ok i) ->
  enc_info i <> benc (BDict d).
Proof.
  intros d i k D K Hk Nk P _ E. apply Nk.
  destruct (info_value_ok i P) as [D' K'].
  rewrite enc_info_canonical in E by auto.
  pose proof (c01 _ [] D K) as C1. pose proof (c01 _ [] D' K') as C2.
  rewrite E in C2. rewrite C1 in C2. assert (E2 : as_metainfo (BDict d) = as_metainfo (info_value i)) by congruence.
  eapply (as_metainfo_keys d i); eauto.
Qed.

(** ** C11 *)
Lemma path_components_spec : forall vs path,
  path_components (map as_metainfo vs) = Ok path <-> vs = map BStr path /\ Forall text path.
Proof.
  induction vs as [|v vs IH]; intros path; cbn [map path_components].
  - split; intros H.
    + injection H as <-. auto.
    + destruct H as [H _]. destruct path; [reflexivity|discriminate].
  - split; intros H.
    + destruct v as [n|s|l|d]; cbn [as_metainfo get_string_content kind_of rbind] in H; try discriminate.
      destruct (utf8_valid s) eqn:U; cbn [rbind] in H; [|discriminate].
      destruct (path_components (map as_metainfo vs)) as [r|e] eqn:E; cbn [rbind] in H; [|discriminate].
      injection H as <-. destruct (proj1 (IH r) eq_refl) as [-> F]. split; auto.
    + destruct H as [H F]. destruct path as [|s path]; [discriminate|]. cbn [map] in H.
      injection H as -> ->. inversion F; subst. cbn [as_metainfo get_string_content].
      unfold text in H1. rewrite H1. cbn [rbind].
      now rewrite (proj2 (IH path)) by auto.
Qed.

Lemma hm_get_map : forall es k, NoDup (map fst es) ->
  hm_get (map (fun kv : bytes * bval => (fst kv, as_metainfo (snd kv))) es) k
  = option_map as_metainfo (last_binding es k).
Proof.
  induction es as [|[k0 v0] es IH]; intros k ND; [reflexivity|]. inversion ND; subst.
  cbn [map fst snd hm_get]. rewrite last_binding_cons, IH by auto.
  destruct (bytes_eqb k k0) eqn:E.
  - apply bytes_eqb_eq in E. subst.
    assert (L : last_binding es k0 = None).
    { clear -H1. induction es as [|[k v] es IH]; [reflexivity|].
      rewrite last_binding_cons, IH by (cbn in H1; tauto).
      destruct (list_eq_dec N.eq_dec k k0); auto. exfalso. apply H1. cbn. auto. }
    rewrite L. cbn. destruct (list_eq_dec N.eq_dec k0 k0); [reflexivity|congruence].
  - apply bytes_eqb_neq in E.
    destruct (list_eq_dec N.eq_dec k0 k) as [->|_]; [congruence|].
    destruct (last_binding es k); reflexivity.
Qed.

Lemma file_from_spec : forall v f, distinct_keys v ->
  (file_from_metainfo (as_metainfo v) = Ok f <-> is_file v f).
Proof.
  intros v f K. unfold file_from_metainfo, get_integer_from_dict, get_list_from_dict, is_file.
  destruct v as [n|s|l|d]; cbn [as_metainfo get_dict_content kind_of rbind];
    try (split; [discriminate|intros (? & ? & ? & _); discriminate]).
  inversion K; subst. rewrite !hm_get_map by auto.
  split.
  - intros H.
    destruct (last_binding d (s2b "length")) as [v1|] eqn:E1; cbn [option_map rbind] in H; [|discriminate].
    destruct v1 as [n|?|?|?]; cbn [as_metainfo get_integer_content kind_of rbind] in H; try discriminate.
    destruct (last_binding d (s2b "path")) as [v2|] eqn:E2; cbn [option_map rbind] in H; [|discriminate].
    destruct v2 as [?|?|vs|?]; cbn [as_metainfo get_list_content kind_of rbind] in H; try discriminate.
    destruct (path_components (map as_metainfo vs)) as [r|e] eqn:E3; cbn [rbind] in H; [|discriminate].
    injection H as <-. apply path_components_spec in E3 as [-> F].
    exists d, (map BStr r). auto 10.
  - intros (es & vs & E & E1 & E2 & -> & F). injection E as <-. rewrite E1, E2.
    cbn [option_map rbind as_metainfo get_integer_content get_list_content].
    rewrite (proj2 (path_components_spec _ (f_path f))) by auto. cbn [rbind]. destruct f; reflexivity.
Qed.

Lemma flat_files_kept : forall vs, Forall distinct_keys vs -> kept vs (flat_files (map as_metainfo vs)).
Proof.
  induction vs as [|v vs IH]; intros K; [constructor|]. inversion K; subst.
  cbn [map flat_files flat_map].
  destruct (file_from_metainfo (as_metainfo v)) as [f|e] eqn:E; cbn [app].
  - constructor; auto. now apply file_from_spec.
  - apply kept_bad; auto. intros f Hf. apply file_from_spec in Hf; auto. congruence.
Qed.

Lemma kept_functional : forall vs a b, kept vs a -> kept vs b -> a = b.
Proof.
  assert (U : forall v f g, is_file v f -> is_file v g -> f = g).
  { intros v f g (es & vs & -> & L1 & P1 & E1 & F1) (es' & vs' & E & L2 & P2 & E2 & F2).
    injection E as <-. rewrite L1 in L2. injection L2 as L2. rewrite P1 in P2. injection P2 as <-.
    subst vs. assert (f_path f = f_path g).
    { clear -E2. revert E2. generalize (f_path g). generalize (f_path f).
      induction l as [|x l IH]; intros [|y m] E; cbn in E; try discriminate; auto.
      injection E as -> E. f_equal. auto. }
    destruct f, g; cbn in *; congruence. }
  intros vs a b Ka. revert b. induction Ka; intros b Kb; inversion Kb; subst; auto.
  - f_equal; eauto.
  - exfalso. eapply H2; eauto.
  - exfalso. eapply H; eauto.
Qed.

Lemma c11 : forall es suf, decodable text (BDict es) -> distinct_keys (BDict es) ->
  exists r, info_from_bytes (benc (BDict es) ++ suf) = Ret r /\
  forall i, r = Ok i <->
    last_binding es (s2b "pieces") = Some (BStr (i_pieces i)) /\
    last_binding es (s2b "piece length") = Some (BInt (i_piece_length i)) /\
    last_binding es (s2b "name") = Some (BStr (i_name i)) /\ is_text (i_name i) /\
    (forall n, i_length i = Some n <-> last_binding es (s2b "length") = Some (BInt n)) /\
    (match i_files i with
     | Some fs => exists vs, last_binding es (s2b "files") = Some (BList vs) /\ kept vs fs
     | None => forall vs, last_binding es (s2b "files") <> Some (BList vs)
     end).
Proof.
  intros es suf D K. eexists. split.
  { unfold info_from_bytes. rewrite c01 by auto. cbn [obind]. reflexivity. }
  inversion K as [| | |d ND Kv]; subst.
  assert (KF : forall k vs, last_binding es k = Some (BList vs) -> Forall distinct_keys vs).
  { intros k vs E. assert (Hd : distinct_keys (BList vs)).
    { clear -Kv E. induction es as [|[k0 v0] es IH]; [discriminate|].
      inversion Kv; subst. rewrite last_binding_cons in E.
      destruct (last_binding es k) eqn:E2; [injection E as ->; auto|].
      destruct (list_eq_dec N.eq_dec k0 k); [injection E as ->; auto|discriminate]. }
    inversion Hd; auto. }
  intros i. unfold info_from_metainfo, get_bytes_from_dict, get_integer_from_dict,
    get_string_from_dict, get_list_from_dict.
  cbn [as_metainfo get_dict_content rbind]. rewrite !hm_get_map by auto. split.
  - intros H.
    destruct (last_binding es (s2b "pieces")) as [v1|]; cbn [option_map] in H; [|discriminate].
    destruct v1 as [?|s1|?|?]; cbn [as_metainfo get_bytes_content kind_of ie_meta rbind] in H; try discriminate.
    destruct (last_binding es (s2b "piece length")) as [v2|]; cbn [option_map] in H; [|discriminate].
    destruct v2 as [n2|?|?|?]; cbn [as_metainfo get_integer_content kind_of ie_meta rbind] in H; try discriminate.
    destruct (last_binding es (s2b "name")) as [v3|]; cbn [option_map] in H; [|discriminate].
    destruct v3 as [?|s3|?|?]; cbn [as_metainfo get_string_content kind_of ie_meta rbind] in H; try discriminate.
    destruct (utf8_valid s3) eqn:U; cbn [ie_meta rbind] in H; [|discriminate].
    injection H as <-. cbn [i_pieces i_piece_length i_name i_length i_files].
    split; [reflexivity|]. split; [reflexivity|]. split; [reflexivity|]. split; [exact U|]. split.
    + intros n. destruct (last_binding es (s2b "length")) as [v4|]; cbn; [|split; discriminate].
      destruct v4; cbn; split; congruence.
    + destruct (last_binding es (s2b "files")) as [v5|] eqn:E5; cbn; [|discriminate].
      destruct v5; cbn; try discriminate.
      eexists. split; [reflexivity|]. apply flat_files_kept. eauto.
  - intros (H1 & H2 & H3 & U & H4 & H5). rewrite H1, H2, H3.
    cbn [option_map as_metainfo get_bytes_content get_integer_content get_string_content ie_meta rbind].
    unfold is_text in U. rewrite U. cbn [ie_meta rbind].
    destruct i as [fs le na pl pi]. cbn [i_files i_length i_name i_piece_length i_pieces] in *.
    do 2 f_equal.
    + destruct fs as [fs|].
      * destruct H5 as (vs & E & Kp). rewrite E. cbn. f_equal.
        eapply kept_functional; [|exact Kp]. apply flat_files_kept. eauto.
      * destruct (last_binding es (s2b "files")) as [v5|]; cbn; auto.
        destruct v5; cbn; auto. exfalso. now apply (H5 l).
    + destruct le as [n|].
      * rewrite (proj1 (H4 n) eq_refl). reflexivity.
      * destruct (last_binding es (s2b "length")) as [v4|]; cbn; auto.
        destruct v4 as [n| | |]; cbn; auto. symmetry. now apply H4.
Qed.

(** ** chunks *)
Lemma chunks_f_fuel : forall A k f f' (l : list A), (0 < k)%nat -> (List.length l < f)%nat -> (List.length l < f')%nat ->
  chunks_exact_f f k l = chunks_exact_f f' k l.
Proof.
  intros A k. induction f as [|f IH]; intros f' l Hk H1 H2; [lia|].
  destruct f' as [|f']; [lia|]. cbn [chunks_exact_f].
  destruct (_ <? _)%nat eqn:E; auto. apply Nat.ltb_ge in E. f_equal. apply IH; auto;
  rewrite skipn_length; lia.
Qed.

Lemma chunks_exact_step : forall A k (l : list A), (0 < k)%nat -> (k <= List.length l)%nat ->
  chunks_exact k l = firstn k l :: chunks_exact k (skipn k l).
Proof.
  intros A k l Hk H. unfold chunks_exact at 1. cbn [chunks_exact_f].
  rewrite (proj2 (Nat.ltb_ge _ _)) by lia. f_equal. unfold chunks_exact. apply chunks_f_fuel; rewrite ?skipn_length; lia.
Qed.

Lemma chunks_exact_short : forall A k (l : list A), (List.length l < k)%nat -> chunks_exact k l = [].
Proof.
  intros A k l H. unfold chunks_exact. cbn [chunks_exact_f]. now rewrite (proj2 (Nat.ltb_lt _ _)).
Qed.

(** ** magnet links *)
Lemma hex_digit_value : forall p b x, hex_value b = Some x -> byte_to_hex p b = Ret x /\ (x < 16)%N.
Proof.
  intros p b x H. unfold hex_value in H. unfold byte_to_hex, is_ascii_uppercase, is_ascii_lowercase, u8sub.
  destruct ((48 <=? b) && (b <=? 57))%N eqn:E1.
  - injection H as <-. apply andb_true_iff in E1 as [L1 L2]. apply N.leb_le in L1, L2.
    rewrite (proj2 (N.leb_gt 65 b)) by lia. cbn [andb].
    rewrite (proj2 (N.leb_gt 97 b)) by lia. cbn [andb].
    rewrite (proj2 (N.leb_le 48 b)) by lia. split; [reflexivity|lia].
  - destruct ((97 <=? b) && (b <=? 102))%N eqn:E2.
    + injection H as <-. apply andb_true_iff in E2 as [L1 L2]. apply N.leb_le in L1, L2.
      rewrite (proj2 (N.leb_gt b 90)) by lia. rewrite andb_false_r.
      rewrite (proj2 (N.leb_le 97 b)), (proj2 (N.leb_le b 122)) by lia. cbn [andb].
      rewrite (proj2 (N.leb_le 87 b)) by lia. split; [f_equal; lia|lia].
    + destruct ((65 <=? b) && (b <=? 70))%N eqn:E3; [|discriminate].
      injection H as <-. apply andb_true_iff in E3 as [L1 L2]. apply N.leb_le in L1, L2.
      rewrite (proj2 (N.leb_le 65 b)), (proj2 (N.leb_le b 90)) by lia. cbn [andb].
      rewrite (proj2 (N.leb_le 55 b)) by lia. split; [f_equal; lia|lia].
Qed.

Lemma hex_pair_value : forall p a b x y, hex_value a = Some x -> hex_value b = Some y ->
  hex_pair p [a; b] = Ret (16 * x + y)%N.
Proof.
  intros p a b x y Ha Hb. unfold hex_pair. cbn [index nth_error obind].
  destruct (hex_digit_value p a x Ha) as [-> Lx]. destruct (hex_digit_value p b y Hb) as [-> Ly].
  cbn [obind]. f_equal. unfold as_u8. rewrite N.shiftl_mul_pow2. change (2 ^ 4)%N with 16%N.
  rewrite N.mod_small by lia.
  assert (C : (forallb (fun x => forallb (fun y => (N.lor (x * 16) y =? 16 * x + y)%N)
    (map N.of_nat (seq 0 16))) (map N.of_nat (seq 0 16))) = true) by (vm_compute; reflexivity).
  rewrite forallb_forall in C. specialize (C x).
  rewrite forallb_forall in C.
  assert (I : forall z, (z < 16)%N -> In z (map N.of_nat (seq 0 16))).
  { intros z Hz. replace z with (N.of_nat (N.to_nat z)) by lia. apply in_map. apply in_seq. lia. }
  apply N.eqb_eq. apply C; apply I; auto.
Qed.

Lemma hex_decode_unhex : forall p l r, unhex l = Some r -> hex_decode p l = Ret r.
Proof.
  intros p. assert (G : forall n l r, (List.length l <= n)%nat -> unhex l = Some r -> hex_decode p l = Ret r).
  { induction n as [|n IH]; intros l r L H.
    - destruct l; [|cbn in L; lia]. injection H as <-. reflexivity.
    - destruct l as [|a [|b t]].
      + injection H as <-. reflexivity.
      + discriminate.
      + cbn [unhex] in H. destruct (hex_value a) as [x|] eqn:Ea; [|discriminate].
        destruct (hex_value b) as [y|] eqn:Eb; [|discriminate].
        destruct (unhex t) as [r'|] eqn:Et; [|discriminate]. injection H as <-.
        unfold hex_decode in *. rewrite chunks_exact_step by (cbn [List.length]; lia).
        cbn [firstn skipn omap]. rewrite (hex_pair_value p a b x y) by auto. cbn [obind].
        rewrite (IH t r') by (auto; cbn in L; lia). reflexivity. }
  intros l r. apply (G (List.length l)). lia.
Qed.

Lemma slice_0_app : forall A (a b : list A) j, j = List.length a -> slice (a ++ b) 0 j = Ret a.
Proof.
  intros A a b j ->. pose proof (slice_app A [] a b 0 (List.length a) eq_refl eq_refl) as H. exact H.
Qed.

Lemma c18_good : forall p x h rest r, List.length x = 12%nat -> List.length h = 40%nat -> unhex h = Some r ->
  parse_magnet p (s2b "magnet:?" ++ x ++ h ++ s2b "&" ++ rest) = Ret (Ok r).
Proof.
  intros p x h rest r Lx Lh U. unfold parse_magnet, verify_info_hash.
  set (m := s2b "magnet:?" ++ x ++ h ++ s2b "&" ++ rest).
  assert (Lm : List.length m = (61 + List.length rest)%nat)
    by (unfold m; rewrite !app_length, Lx, Lh; cbn; lia).
  rewrite (proj2 (N.ltb_ge _ _)) by (unfold lenN; lia).
  unfold m at 1. rewrite slice_0_app by reflexivity. cbn [obind]. rewrite bytes_eqb_refl. cbn [negb].
  unfold parse_info_hash, index.
  replace m with ((s2b "magnet:?" ++ x ++ h) ++ 38%N :: rest)
    by (unfold m; rewrite <- !app_assoc; reflexivity).
  replace 60%nat with (List.length (s2b "magnet:?" ++ x ++ h)) at 1
    by (rewrite !app_length, Lx, Lh; reflexivity).
  rewrite nth_error_app_mid. cbn [obind]. rewrite N.eqb_refl.
  replace ((s2b "magnet:?" ++ x ++ h) ++ 38%N :: rest) with ((s2b "magnet:?" ++ x) ++ h ++ 38%N :: rest)
    by (rewrite <- !app_assoc; reflexivity).
  rewrite slice_app by (rewrite !app_length, Lx; cbn; lia). cbn [obind].
  now rewrite (hex_decode_unhex p h r U).
Qed.

Lemma bytes_eqb_false : forall a b, a <> b -> bytes_eqb a b = false.
Proof. intros a b H. now apply bytes_eqb_neq. Qed.

Lemma c18_rejected : forall p m,
  (List.length m < 60)%nat \/ firstn 8 m <> s2b "magnet:?" -> parse_magnet p m = Ret (Err tt).
Proof.
  intros p m H. unfold parse_magnet, verify_info_hash.
  destruct (lenN m <? 60)%N eqn:E; [reflexivity|]. apply N.ltb_ge in E. unfold lenN in E.
  destruct H as [H|H]; [lia|]. unfold slice.
  rewrite (proj2 (Nat.leb_le 8 _)) by lia. cbn [Nat.leb andb obind Nat.sub skipn].
  rewrite bytes_eqb_false by auto. reflexivity.
Qed.

Lemma c18_sixty : forall p m, List.length m = 60%nat -> firstn 8 m = s2b "magnet:?" ->
  parse_magnet p m = Panic.
Proof.
  intros p m L H. unfold parse_magnet, verify_info_hash.
  rewrite (proj2 (N.ltb_ge _ _)) by (unfold lenN; lia). unfold slice.
  rewrite (proj2 (Nat.leb_le 8 _)) by lia. cbn [Nat.leb andb obind Nat.sub skipn].
  rewrite H, bytes_eqb_refl. cbn [negb]. unfold parse_info_hash, index.
  now rewrite (proj2 (nth_error_None m 60)) by lia.
Qed.

Lemma c18_other : forall p m b, firstn 8 m = s2b "magnet:?" -> nth_error m 60 = Some b -> b <> 38%N ->
  parse_magnet p m = Ret (Ok (firstn 32 (skipn 20 m))).
Proof.
  intros p m b H Hb Nb. unfold parse_magnet, verify_info_hash.
  assert (L : (60 < List.length m)%nat) by (apply nth_error_Some; congruence).
  rewrite (proj2 (N.ltb_ge _ _)) by (unfold lenN; lia). unfold slice at 1.
  rewrite (proj2 (Nat.leb_le 8 _)) by lia. cbn [Nat.leb andb obind Nat.sub]. change (skipn 0 m) with m.
  rewrite H, bytes_eqb_refl. cbn [negb]. unfold parse_info_hash, index. rewrite Hb. cbn [obind].
  rewrite (proj2 (N.eqb_neq _ _)) by auto. unfold slice.
  rewrite (proj2 (Nat.leb_le 20 52)) by lia. rewrite (proj2 (Nat.leb_le 52 _)) by lia. reflexivity.
Qed.

Lemma byte_to_hex_cases : forall p b, (exists x, byte_to_hex p b = Ret x) \/
  (p = Debug /\ (b < 48)%N /\ byte_to_hex p b = Panic).
Proof.
  intros p b. unfold byte_to_hex, is_ascii_uppercase, is_ascii_lowercase, u8sub.
  destruct ((65 <=? b) && (b <=? 90))%N eqn:E1; [rewrite (proj2 (N.leb_le 55 b)) by lia; eauto|].
  destruct ((97 <=? b) && (b <=? 122))%N eqn:E2; [rewrite (proj2 (N.leb_le 87 b)) by lia; eauto|].
  destruct (48 <=? b)%N eqn:E3; eauto. destruct p; eauto. right. apply N.leb_gt in E3. auto.
Qed.

Lemma hex_pair_cases : forall p a b, (exists x, hex_pair p [a; b] = Ret x) \/
  (p = Debug /\ hex_pair p [a; b] = Panic /\ ((a < 48)%N \/ (b < 48)%N)).
Proof.
  intros p a b. unfold hex_pair. cbn [index nth_error obind].
  destruct (byte_to_hex_cases p a) as [[x ->]|(-> & La & ->)]; cbn [obind]; auto 6.
  destruct (byte_to_hex_cases p b) as [[y ->]|(-> & Lb & ->)]; cbn [obind]; eauto 6.
Qed.

Lemma hex_decode_cases : forall p n l, List.length l = (2 * n)%nat ->
  (exists r, hex_decode p l = Ret r /\ List.length r = n) \/
  (p = Debug /\ hex_decode p l = Panic /\ exists b, In b l /\ (b < 48)%N).
Proof.
  intros p. induction n as [|n IH]; intros l L.
  - destruct l; [|cbn in L; lia]. left. exists []. auto.
  - destruct l as [|a [|b t]]; cbn [List.length] in L; try lia.
    unfold hex_decode. rewrite chunks_exact_step by (cbn [List.length]; lia).
    cbn [firstn skipn omap].
    destruct (hex_pair_cases p a b) as [[x ->]|(-> & -> & Lab)]; cbn [obind].
    2:{ right. split; [reflexivity|]. split; [reflexivity|].
        destruct Lab as [?|?]; [exists a|exists b]; cbn; auto. }
    fold (hex_decode p t).
    destruct (IH t ltac:(lia)) as [(r & -> & Lr)|(-> & -> & c & Hc & Lc)]; cbn [obind].
    + left. eexists. split; [reflexivity|]. cbn. lia.
    + right. split; auto. split; auto. exists c. cbn. auto.
Qed.

Lemma in_slice_nth : forall A (l : list A) a n x, In x (firstn n (skipn a l)) ->
  exists k, (a <= k < a + n)%nat /\ nth_error l k = Some x.
Proof.
  intros A l a n x H. apply In_nth_error in H as [j Hj].
  assert (Lj : (j < List.length (firstn n (skipn a l)))%nat) by (apply nth_error_Some; congruence).
  rewrite firstn_length, skipn_length in Lj.
  exists (a + j)%nat. split; [lia|].
  rewrite nth_error_firstn_lt in Hj by lia.
  rewrite <- (firstn_skipn a l). rewrite nth_error_app2 by (rewrite firstn_length; lia).
  rewrite firstn_length. replace (a + j - Nat.min a (List.length l))%nat with j by lia. auto.
Qed.

Lemma c18_total : forall p m, firstn 8 m = s2b "magnet:?" -> (60 < List.length m)%nat ->
  (exists h, parse_magnet p m = Ret (Ok h) /\ (List.length h = 20%nat \/ List.length h = 32%nat)) \/
  (p = Debug /\ parse_magnet p m = Panic /\
   exists k b, (20 <= k < 60)%nat /\ nth_error m k = Some b /\ (b < 48)%N).
Proof.
  intros p m H L. destruct (nth_error m 60) as [b|] eqn:Eb; [|apply nth_error_None in Eb; lia].
  destruct (N.eq_dec b 38) as [->|Nb].
  - assert (E : parse_magnet p m = (r <- hex_decode p (firstn 40 (skipn 20 m)) ;; Ret (Ok r))).
    { unfold parse_magnet, verify_info_hash.
      rewrite (proj2 (N.ltb_ge _ _)) by (unfold lenN; lia). unfold slice at 1.
      rewrite (proj2 (Nat.leb_le 8 _)) by lia. cbn [Nat.leb andb obind Nat.sub]. change (skipn 0 m) with m.
      rewrite H, bytes_eqb_refl. cbn [negb]. unfold parse_info_hash, index. rewrite Eb. cbn [obind].
      rewrite N.eqb_refl. unfold slice.
      rewrite (proj2 (Nat.leb_le 20 60)) by lia. rewrite (proj2 (Nat.leb_le 60 _)) by lia.
      cbn [andb obind]. now replace (60 - 20)%nat with 40%nat by lia. }
    rewrite E.
    destruct (hex_decode_cases p 20 (firstn 40 (skipn 20 m))) as [(r & -> & Lr)|(-> & -> & c & Hc & Lc)].
    + rewrite firstn_length, skipn_length. lia.
    + left. cbn [obind]. eauto.
    + right. split; auto. split; auto. apply in_slice_nth in Hc as (k & Hk & Ek). exists k, c. auto.
  - left. exists (firstn 32 (skipn 20 m)). split; [eapply c18_other; eauto|].
    right. rewrite firstn_length, skipn_length. lia.
Qed.

Lemma c11_not_dict : forall v suf, decodable text v -> distinct_keys v -> (forall es, v <> BDict es) ->
  exists e, info_from_bytes (benc v ++ suf) = Ret (Err e).
Proof.
  intros v suf D K N. unfold info_from_bytes. rewrite c01 by auto. cbn [obind].
  destruct v as [n|s|l|d]; cbn; eauto. exfalso. now apply (N d).
Qed.

Lemma c11_files : forall i fs, get_files i = Ok fs <-> consists_of i fs.
Proof.
  intros i fs. unfold get_files, file_new. destruct (i_files i) as [l|] eqn:F.
  - split; [intros E; injection E as <-; constructor; auto|]. intros C. inversion C; congruence.
  - destruct (i_length i) as [n|] eqn:L.
    + split; [intros E; injection E as <-; now constructor|]. intros C. inversion C as [? H|? ? H]; congruence.
    + split; [discriminate|]. intros C. inversion C; congruence.
Qed.

Lemma c11_no_length : forall p i, i_files i = None -> i_length i = None ->
  get_total_length p i = Panic /\ get_files i = Err IENoFileLength.
Proof. intros p i F L. unfold get_total_length, get_files. now rewrite F, L. Qed.
