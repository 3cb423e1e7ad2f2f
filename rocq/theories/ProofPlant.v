(** ProofPlant: proofs for PropPlant *)
From Coq Require Import Lia.
From Verif Require Import Base Utf8 ModelBencode ModelMessages ModelTorrent ModelWriter ModelTracker ModelStream
  ModelPeer ModelActors ModelCache ModelMain ProofBase SpecTorrent ProofTorrent SpecWriter ProofWriter SpecStream SpecPieces
  SpecPeer ProofPeer SpecSystem ProofSystem SpecCache ProofCache ProofCache2 SpecMain ProofMain SpecText ProofText SpecDisk ProofDisk
  SpecPlant.

(** ** Links name bytes *)
Lemma pairs_octets : forall p l r, Forall (fun c => octets c) l -> omap (hex_pair p) l = Ret r -> octets r.
Proof.
  intros p. induction l as [|c l IH]; intros r F H; cbn [omap] in H; [injection H as <-; constructor|].
  apply obind_ret in H as (y & Y & H). apply obind_ret in H as (ys & YS & H). injection H as <-. inversion F; subst.
  constructor; [|apply (IH ys); auto]. unfold hex_pair in Y. apply obind_ret in Y as (c0 & I0 & Y). apply obind_ret in Y as (c1 & I1 & Y).
  apply obind_ret in Y as (h & B0 & Y). apply obind_ret in Y as (k & B1 & Y). injection Y as <-.
  apply (octets_index c 0 c0) in I0; [|auto]. apply (octets_index c 1 c1) in I1; [|auto].
  assert (K : (k < 256)%N).
  { assert (U : forall b, u8sub p c1 b = Ret k -> (k < 256)%N).
    { intros b. unfold u8sub. destruct (b <=? c1)%N eqn:L; [intros Q; injection Q as <-; lia|]. apply N.leb_gt in L.
      destruct p; [discriminate|]. intros Q. injection Q as <-. lia. }
    unfold byte_to_hex in B1. destruct (is_ascii_uppercase c1); [eauto|]. destruct (is_ascii_lowercase c1); eauto. }
  unfold as_u8. assert (A : (N.shiftl h 4 mod 256 < 2 ^ 8)%N) by (apply N.mod_lt; discriminate).
  change 256%N with (2 ^ 8)%N in *. set (a := (N.shiftl h 4 mod 2 ^ 8)%N) in *. clearbody a.
  assert (Hb : forall n j, (n < 2 ^ 8)%N -> (8 <= j)%N -> N.testbit n j = false).
  { intros n j L G. rewrite <- (N.mod_small n (2 ^ 8)) by auto. apply N.mod_pow2_bits_high. auto. }
  destruct (N.eq_dec (N.lor a k) 0) as [->|NZ]; [reflexivity|]. apply N.log2_lt_pow2; [lia|].
  destruct (N.lt_ge_cases (N.log2 (N.lor a k)) 8) as [L|L]; [auto|]. pose proof (N.bit_log2 _ NZ) as B.
  rewrite N.lor_spec, (Hb a), (Hb k) in B by auto. discriminate.
Qed.

Lemma chunks_octets : forall k f (l : bytes), octets l -> Forall (fun c => octets c) (chunks_exact_f f k l).
Proof.
  intros k. induction f as [|f IH]; intros l O; cbn [chunks_exact_f]; [constructor|].
  destruct (List.length l <? k)%nat; [constructor|]. constructor; [apply octets_firstn, O|apply IH, octets_skipn, O].
Qed.

Lemma link_octets : forall p raw h, octets raw -> accepts p raw = Some h -> octets h.
Proof.
  intros p raw h O A. unfold accepts in A. destruct ((lenN raw <=? 262144)%N && utf8_valid raw); [|discriminate].
  destruct (parse_magnet p raw) as [[h'|]| |] eqn:P; try discriminate. injection A as ->.
  unfold parse_magnet in P. apply obind_ret in P as (ok & V & P).
  destruct ok; [discriminate|]. apply obind_ret in P as (h' & I & P). injection P as ->.
  unfold parse_info_hash in I. apply obind_ret in I as (b & B & I). destruct (b =? 38)%N.
  - apply obind_ret in I as (s & S & I). eapply pairs_octets; [|exact I]. apply chunks_octets. eapply octets_slice; eauto.
  - eapply octets_slice; eauto.
Qed.

Lemma accepted_octets : forall p ops, Forall of_octets ops -> Forall octets (accepted p ops).
Proof.
  intros p ops F. unfold accepted. apply Forall_forall. intros h I. apply in_flat_map in I as (o & Io & I).
  apply (proj1 (Forall_forall _ _) F) in Io. destruct o; try contradiction. destruct (accepts p raw) eqn:A; [|contradiction].
  destruct I as [<-|[]]. eapply link_octets; [exact Io|exact A].
Qed.

(** ** Getting a description *)
Lemma places_differ : forall cwd n, in_downloads cwd n <> cwd ++ [s2b "downloads"].
Proof. intros cwd n E. unfold in_downloads in E. apply app_inv_head in E. discriminate. Qed.

Lemma right_same : forall sha1 cwd d d', (forall n, d' (in_downloads cwd n) = d (in_downloads cwd n)) ->
  saved_right encode_binary sha1 cwd d -> saved_right encode_binary sha1 cwd d'.
Proof. intros sha1 cwd d d' E R h c i O F. rewrite E in F. eapply R; eauto. Qed.

Lemma collect_right : forall sha1 accept fuel cwd d net pid h ep r d', octets h -> (forall s, net = Some s -> octets (incoming s)) ->
  saved_right encode_binary sha1 cwd d -> (forall i, get_info fuel net pid h ep = Ret (Ok i) -> compute_info_hash sha1 i = h) ->
  collect_info accept fuel cwd d net pid h ep = Ret (r, d') ->
  (forall i, r = Some i -> compute_info_hash sha1 i = h) /\ saved_right encode_binary sha1 cwd d'.
Proof.
  intros sha1 accept fuel cwd d net pid h ep r d' O ON R T C. unfold collect_info in C.
  destruct (walk_create d cwd [dot; downloads]) as [[d1 at_]|] eqn:W; [|discriminate].
  destruct (walk_downloads d cwd d1 at_ W) as (_ & _ & OTH & _).
  assert (R1 : saved_right encode_binary sha1 cwd d1).
  { eapply right_same; [|exact R]. intros n. apply OTH. apply places_differ. }
  change (cache_loc cwd h) with (in_downloads cwd (encode_binary h)) in C.
  apply obind_ret in C as (c & FF & C). destruct c as [i|e].
  - injection C as <- <-. split; [|exact R1]. intros j E. injection E as <-.
    apply c64_file in FF as (c & E & _ & D). eapply R1; eauto.
  - apply obind_ret in C as (g & G & C). destruct g as [i|e']; [|injection C as <- <-; split; [discriminate|exact R1]].
    apply obind_ret in C as ([u d2] & S & C). injection C as <- <-. pose proof (T i G) as HI.
    split; [intros j E; injection E as <-; exact HI|].
    pose proof (get_info_sound fuel net pid h ep i ON G) as RI.
    assert (D2 : d2 = fs_set d1 (in_downloads cwd (encode_binary h)) (NFile (firstn accept (js_info i)))).
    { unfold save in S. destruct (d1 (in_downloads cwd (encode_binary h))) as [[|?]|]; try discriminate; injection S as _ <-; reflexivity. }
    intros h' c j O' F D. destruct (list_eq_dec (list_eq_dec N.eq_dec) (in_downloads cwd (encode_binary h')) (in_downloads cwd (encode_binary h))) as [E|NE].
    + apply c53_own_file in E; [|auto|auto]. subst h'. rewrite D2 in F. rewrite set_same in F. injection F as <-.
      apply c64_reads in D. destruct (Nat.lt_ge_cases accept (List.length (js_info i))) as [L|L].
      * rewrite (json_cut i accept RI L) in D. discriminate.
      * rewrite firstn_all2 in D by auto. rewrite (json_round_trip i RI) in D. injection D as <-. exact HI.
    + rewrite D2 in F. rewrite set_other in F by (intros Q; exact (NE (eq_sym Q))). eapply R1; eauto.
Qed.

(** ** One step *)
Lemma step_info : forall sha1 p cwd x o i, ta_info (sy_actor (sys_step sha1 p cwd x o)) = Some i ->
  ta_info (sy_actor x) = Some i \/ exists k sh, o = OHandle k (Ret (Some i)) sh.
Proof.
  intros sha1 p cwd x o i. destruct o as [ep|k found sh| |j net pid fuel|]; cbn [sys_step].
  - auto.
  - destruct (sy_dead x); cbn [sy_actor]; [auto|]. destruct (nth_error (sy_mail x) k) as [m|]; [|auto].
    destruct (handle p found sh (sy_actor x) m) as [[a' es]| |] eqn:H; cbn [sy_actor]; auto. intros E.
    destruct m as [ep|ep piece idx|ep idx]; cbn [handle] in H.
    + unfold handle_peer_found in H. destruct (ta_info (sy_actor x)) as [i0|] eqn:I0.
      * left. destruct ((10 <? lenN (ta_peers (sy_actor x) ++ [apeer_new ep]))%N && negb (ta_initiated (sy_actor x))).
        -- apply obind_ret in H as (pool & _ & H). apply obind_ret in H as ([[pool' ini] es'] & _ & H). injection H as <- <-. exact E.
        -- injection H as <- <-. exact E.
      * apply obind_ret in H as (r & FR & H). destruct r as [i1|].
        -- apply obind_ret in H as (total & _ & H). apply obind_ret in H as (count & _ & H). injection H as <- <-. cbn in E. injection E as ->.
           right. exists k, sh. now rewrite FR.
        -- injection H as <- <-. cbn in E. discriminate.
    + left. unfold handle_success in H. apply obind_ret in H as (i0 & _ & H). apply obind_ret in H as (fs & _ & H).
      apply obind_ret in H as (pool & _ & H). destruct (pool_pop pool) as [po pl]. injection H as <- <-. exact E.
    + left. unfold handle_failed in H. apply obind_ret in H as (pool & _ & H). apply obind_ret in H as (nep & _ & H).
      destruct (pool_pop (pool_insert pool idx)) as [[n|] pl].
      * apply obind_ret in H as (i0 & _ & H). injection H as <- <-. exact E.
      * injection H as <- <-. exact E.
  - destruct (sy_queue x); cbn [sy_actor]; auto. match goal with |- context [if ?c then _ else _] => destruct c end; cbn; auto.
  - destruct (nth_error (sy_working x) j); cbn [sy_actor]; auto. destruct (download _ _ _ _ _ _ _ _) as [[?|?]| |]; cbn; auto.
  - destruct (sy_writer_dead x); cbn [sy_actor]; auto. destruct (sy_writer x); cbn; auto. destruct (write _ _ _ _ _ _ _); cbn; auto.
Qed.

Lemma step_torrent : forall sha1 p cwd s o u x' i, nth_error (pr_torrents (pr_step sha1 p cwd s o)) u = Some x' ->
  ta_info (sy_actor x') = Some i ->
  exists x, nth_error (pr_torrents s) u = Some x /\ ta_info_hash (sy_actor x') = ta_info_hash (sy_actor x) /\
    (ta_info (sy_actor x) = Some i \/
     exists k accept fuel net pid sh ep d', o = PHandle u k accept fuel net pid sh /\
       collect_info accept fuel cwd (pr_disk s) net pid (ta_info_hash (sy_actor x)) ep = Ret (Some i, d')).
Proof.
  intros sha1 p cwd s o u x' i H I.
  assert (T : forall s0 t o', pr_torrents s0 = pr_torrents s -> nth_error (pr_torrents (torrent_step sha1 p cwd s0 t o')) u = Some x' ->
    exists x, nth_error (pr_torrents s) u = Some x /\ ta_info_hash (sy_actor x') = ta_info_hash (sy_actor x) /\
      (ta_info (sy_actor x) = Some i \/ u = t /\ exists k sh, o' = OHandle k (Ret (Some i)) sh)).
  { intros s0 t o' E H'. rewrite torrent_nth, E in H'. destruct (u =? t)%nat eqn:U.
    - apply Nat.eqb_eq in U as ->. destruct (nth_error (pr_torrents s) t) as [x|]; [|discriminate]. injection H' as <-.
      exists x. split; [auto|]. split; [rewrite step_hash; reflexivity|]. destruct (step_info _ _ _ _ _ _ I) as [Q|Q]; [left; exact Q|auto].
    - eauto. }
  assert (Same : pr_torrents (pr_step sha1 p cwd s o) = pr_torrents s -> exists x, nth_error (pr_torrents s) u = Some x /\
    ta_info_hash (sy_actor x') = ta_info_hash (sy_actor x) /\ (ta_info (sy_actor x) = Some i \/
     exists k accept fuel net pid sh ep d', o = PHandle u k accept fuel net pid sh /\
       collect_info accept fuel cwd (pr_disk s) net pid (ta_info_hash (sy_actor x)) ep = Ret (Some i, d'))).
  { intros E. rewrite E in H. eauto. }
  assert (Other : forall s0 t o', pr_torrents s0 = pr_torrents s -> (forall k sh, o' <> OHandle k (Ret (Some i)) sh) ->
    nth_error (pr_torrents (torrent_step sha1 p cwd s0 t o')) u = Some x' ->
    exists x, nth_error (pr_torrents s) u = Some x /\
    ta_info_hash (sy_actor x') = ta_info_hash (sy_actor x) /\ (ta_info (sy_actor x) = Some i \/
     exists k accept fuel net pid sh ep d', o = PHandle u k accept fuel net pid sh /\
       collect_info accept fuel cwd (pr_disk s) net pid (ta_info_hash (sy_actor x)) ep = Ret (Some i, d'))).
  { intros s0 t o' E NO H'. destruct (T s0 t o' E H') as (x & A & B & [C|(_ & k & sh & C)]); [eauto|]. exfalso. eapply NO; eauto. }
  destruct o as [raw full|full|k|k j e|k j connects|t k accept fuel net pid shuffle|t|t j net pid fuel|t]; cbn [pr_step] in H, Same.
  - destruct (add_cases p full raw s) as [(h & A & _ & E)|(A & _ & E)]; rewrite E in H; [|rewrite E in Same; auto].
    cbn [pr_torrents] in H. destruct (Nat.lt_ge_cases u (List.length (pr_torrents s))) as [L|L].
    + rewrite nth_error_app1 in H by auto. eauto.
    + rewrite nth_error_app2 in H by auto. destruct (u - List.length (pr_torrents s))%nat as [|n]; cbn in H; [|destruct n; discriminate].
      injection H as <-. cbn in I. discriminate.
  - destruct (pr_interface s); apply Same; reflexivity.
  - apply Same. reflexivity.
  - apply Same. reflexivity.
  - destruct (nth_error (pr_trackers s) k) as [x|]; [|apply Same; reflexivity].
    destruct (nth_error (tk_jobs x) j) as [[r|r [|e rest]]|]; try (apply Same; reflexivity).
    destruct (is_reachable connects (endpoint e)); [|apply Same; reflexivity]. refine (Other _ _ _ _ _ H); [reflexivity|intros ? ?; discriminate].
  - destruct (nth_error (pr_torrents s) t) as [x|] eqn:EX; [|apply Same; reflexivity].
    destruct (nth_error (sy_mail x) k) as [[]|]; try (refine (Other _ _ _ _ _ H); [reflexivity|intros ? ?; discriminate]).
    destruct (ta_info (sy_actor x)); try (refine (Other _ _ _ _ _ H); [reflexivity|intros ? ?; discriminate]).
    destruct (sy_dead x); try (refine (Other _ _ _ _ _ H); [reflexivity|intros ? ?; discriminate]).
    destruct (collect_info accept fuel cwd (pr_disk s) net pid (ta_info_hash (sy_actor x)) ep) as [[found d']| |] eqn:C.
    + destruct (T (with_disk s d') t _ eq_refl H) as (y & A & B & [D|(-> & k' & sh & D)]); [eauto|].
      injection D as _ -> _. rewrite EX in A. injection A as <-. exists x. split; [auto|]. split; [auto|]. right.
      exists k, accept, fuel, net, pid, shuffle, ep, d'. auto.
    + refine (Other _ _ _ _ _ H); [reflexivity|intros ? ?; discriminate].
    + apply Same. reflexivity.
  - refine (Other _ _ _ _ _ H); [reflexivity|intros ? ?; discriminate].
  - refine (Other _ _ _ _ _ H); [reflexivity|intros ? ?; discriminate].
  - refine (Other _ _ _ _ _ H); [reflexivity|intros ? ?; discriminate].
Qed.

Lemma write_saved : forall sha1 p cwd d ops s t, started sha1 p cwd d ops s -> leaves_downloads s ->
  saved_right encode_binary sha1 cwd (pr_disk s) -> saved_right encode_binary sha1 cwd (pr_disk (pr_step sha1 p cwd s (PWrite t))).
Proof.
  intros sha1 p cwd d ops s t R LD SR.
  assert (W : (forall l, pr_disk (pr_step sha1 p cwd s (PWrite t)) l = pr_disk s l) \/
    written_change p cwd s t (pr_disk (pr_step sha1 p cwd s (PWrite t)))).
  { cbn [pr_step]. unfold torrent_step. destruct (nth_error (pr_torrents s) t) as [x|] eqn:EX; [|left; auto].
    cbn [sys_step set_disk sy_writer_dead sy_writer sy_disk pr_disk].
    destruct (sy_writer_dead x); [left; auto|]. destruct (sy_writer x) as [|r rest] eqn:W; [left; auto|].
    pose proof (readies_good _ _ _ _ _ _ R t x EX) as G. destruct (writer_suffix _ _ _ _ _ _ R t x EX) as (done & ET).
    rewrite ET in G. rewrite W in G.
    destruct (ta_info (sy_actor x)) as [i|] eqn:I; [|apply app_eq_nil in G as [_ G]; discriminate].
    destruct G as (n & files & _ & GF & G). apply Forall_app in G as [_ G]. inversion G as [|? ? (F1 & _) _]; subst.
    apply c11_files in GF.
    destruct (write p cwd (pr_disk s) (rd_piece r) (rd_idx r) (rd_files r) (rd_piece_length r)) as [d'| |] eqn:WR; cbn [sy_disk].
    + right. exists x, i, (rd_files r), r. split; [auto|]. split; [auto|]. split; [auto|]. symmetry. apply write_left_ret. auto.
    + right. exists x, i, (rd_files r), r. auto.
    + left. auto. }
  destruct W as [E|(x & i & files & r & X1 & X2 & X3 & X4)]; [eapply right_same; [intros n; apply E|exact SR]|].
  assert (SF : forall f, In f files -> some_file s (f_path f)).
  { intros f I. exists x, i, files, f. split; [eapply nth_error_In; eauto|auto]. }
  assert (F : Forall (fun f => sane_path (f_path f)) files) by (apply Forall_forall; intros f I; apply LD, SF, I).
  intros h c j O FC D.
  destruct (write_left_changes p cwd (pr_disk s) (rd_piece r) (rd_idx r) files (rd_piece_length r) F (in_downloads cwd (encode_binary h)))
    as [E|(path & (f & If & Ef) & q & r0 & B1 & B2 & B3)].
  - rewrite X4, E in FC. eapply SR; eauto.
  - exfalso. unfold in_downloads in B2. apply app_inv_head in B2. subst q. apply (proj2 (LD _ (SF f If)) (encode_binary h :: r0)).
    rewrite Ef, B1. reflexivity.
Qed.

Lemma step_saved : forall sha1 p cwd d ops s o, started sha1 p cwd d ops s -> Forall octets (accepted p ops) -> of_octets o ->
  tells_truth sha1 s o -> leaves_downloads s -> saved_right encode_binary sha1 cwd (pr_disk s) ->
  saved_right encode_binary sha1 cwd (pr_disk (pr_step sha1 p cwd s o)).
Proof.
  intros sha1 p cwd d ops s o R OA OO TT LD SR.
  destruct o as [raw full|full|k|k j e|k j connects|t k accept fuel net pid shuffle|t|t j net pid fuel|t]; cbn [pr_step].
    1: { destruct (add_cases p full raw s) as [(h0 & _ & _ & E0)|(_ & _ & E0)]; rewrite E0; exact SR. }
    1: { destruct (pr_interface s); exact SR. }
    1,2: exact SR.
    1: { destruct (nth_error (pr_trackers s) k) as [x|]; [|exact SR].
      destruct (nth_error (tk_jobs x) j) as [[r|r [|e rest]]|]; try exact SR.
      destruct (is_reachable connects (endpoint e)); [rewrite pr_disk_step by discriminate|]; exact SR. }
    2,3: rewrite pr_disk_step by discriminate; exact SR.
    2: { exact (write_saved sha1 p cwd d ops s t R LD SR). }
    destruct (nth_error (pr_torrents s) t) as [x|] eqn:EX; [|exact SR].
    destruct (nth_error (sy_mail x) k) as [[]|]; try (rewrite pr_disk_step by discriminate; exact SR).
    destruct (ta_info (sy_actor x)); try (rewrite pr_disk_step by discriminate; exact SR).
    destruct (sy_dead x); try (rewrite pr_disk_step by discriminate; exact SR).
    assert (M : saved_right encode_binary sha1 cwd (downloads_made cwd (pr_disk s))).
    { eapply right_same; [|exact SR]. intros n. destruct (downloads_made_change cwd (pr_disk s) (in_downloads cwd n)) as [Q|(Q & _)]; [exact Q|].
      exfalso. exact (places_differ _ _ Q). }
    destruct (collect_info accept fuel cwd (pr_disk s) net pid (ta_info_hash (sy_actor x)) ep) as [[found d']| |] eqn:C.
    + rewrite pr_disk_step by discriminate. cbn [pr_disk with_disk]. cbn [of_octets tells_truth] in OO, TT.
      eapply (collect_right sha1 accept fuel cwd (pr_disk s) net pid (ta_info_hash (sy_actor x)) ep found d'); [|exact OO|exact SR| |exact C].
      * apply (proj1 (Forall_forall _ _) OA). eapply nth_error_In, torrent_hash; eauto.
      * intros i G. eapply TT; eauto.
    + rewrite pr_disk_step by discriminate. exact M.
    + exact M.
Qed.

Lemma truth_app : forall sha1 p cwd ops s o, all_tell_truth sha1 p cwd s (ops ++ [o]) <->
  all_tell_truth sha1 p cwd s ops /\ tells_truth sha1 (pr_run sha1 p cwd s ops) o.
Proof.
  intros sha1 p cwd. induction ops as [|a ops IH]; intros s o; cbn [app all_tell_truth pr_run fold_left]; [tauto|].
  rewrite IH. unfold pr_run. tauto.
Qed.

Lemma c76 : forall sha1 p cwd d ops s, started sha1 p cwd d ops s -> Forall of_octets ops ->
  all_tell_truth sha1 p cwd (process_init d) ops -> saved_right encode_binary sha1 cwd d -> leaves_downloads s ->
  as_linked sha1 s /\ saved_right encode_binary sha1 cwd (pr_disk s).
Proof.
  intros sha1 p cwd d ops s R F T SR. revert ops s R F T. refine (started_ind sha1 p cwd d _ _ _).
  - intros _ _ _. split; [|exact SR]. intros x i [].
  - intros ops s o R OK IH F T LD. apply Forall_app in F as [F Fo]. inversion Fo as [|? ? OO _]; subst.
    apply truth_app in T as [T To]. rewrite <- (proj2 R) in To.
    assert (LS : leaves_downloads s) by (intros path H; apply LD, some_file_step, H).
    destruct (IH F T LS) as [AL SD]. pose proof (accepted_octets p ops F) as OA. split.
    + intros x' i I E. apply in_nth in I as (u & N). destruct (step_torrent _ _ _ _ _ _ _ _ N E) as (x & Nx & Hh & [Q|(k & accept & fuel & net & pid & sh & ep & d' & -> & C)]).
      * rewrite Hh. apply (AL x i); [eapply nth_error_In; eauto|exact Q].
      * rewrite Hh. cbn [of_octets tells_truth] in OO, To.
        refine (proj1 (collect_right sha1 accept fuel cwd (pr_disk s) net pid (ta_info_hash (sy_actor x)) ep (Some i) d' _ OO SD _ C) i eq_refl).
        -- apply (proj1 (Forall_forall _ _) OA). eapply nth_error_In, torrent_hash; eauto.
        -- intros i' G. eapply To; eauto.
    + eapply step_saved; eauto.
Qed.
