(** ProofFull: proofs for PropFull *)
From Coq Require Import Lia Permutation.
From Verif Require Import Base ModelTorrent ModelWriter ModelPeer ModelActors ModelFull ProofBase ProofBencode ProofPeer SpecTorrent ProofTorrent
  SpecWriter ProofWriter SpecSystem ProofSystem SpecGap ProofGap ProofDisk SpecFull.

(** ** Nobody notices *)
Lemma alike_refl : forall s, alike_but_disk s s.
Proof. intros s. unfold alike_but_disk. auto 10. Qed.
Lemma alike_sym : forall s t, alike_but_disk s t -> alike_but_disk t s.
Proof. unfold alike_but_disk. intuition congruence. Qed.
Lemma alike_trans : forall s t u, alike_but_disk s t -> alike_but_disk t u -> alike_but_disk s u.
Proof. unfold alike_but_disk. intuition congruence. Qed.
Lemma write_alike : forall sha1 p cwd s, alike_but_disk s (sys_step sha1 p cwd s OWrite).
Proof.
  intros sha1 p cwd s. cbn [sys_step]. destruct (sy_writer_dead s); [apply alike_refl|]. destruct (sy_writer s); [apply alike_refl|].
  destruct (write _ _ _ _ _ _ _); unfold alike_but_disk; cbn; auto 10.
Qed.
Lemma write_alike_v : forall sha1 p cwd s vs, alike_but_disk s (sys_step_v sha1 p cwd s (OWrite, vs)).
Proof.
  intros sha1 p cwd s vs. unfold sys_step_v. cbn [fst snd]. destruct (sy_writer_dead s); [apply alike_refl|]. destruct (sy_writer s); [apply alike_refl|].
  destruct (try_write _ _ _ _ _ _ _ _); unfold alike_but_disk; cbn; auto 10.
Qed.
Lemma other_step : forall sha1 p cwd s o vs, o <> OWrite -> sys_step_v sha1 p cwd s (o, vs) = sys_step sha1 p cwd s o.
Proof. intros sha1 p cwd s o vs N. destruct o; try reflexivity. congruence. Qed.
Lemma alike_step : forall sha1 p cwd s t o, o <> OWrite -> alike_but_disk s t -> alike_but_disk (sys_step sha1 p cwd s o) (sys_step sha1 p cwd t o).
Proof.
  intros sha1 p cwd s t o N A. assert (A' := A). destruct A' as (E1 & E2 & E3 & E4 & E5 & E6 & E7).
  destruct o as [ep|k found shuffle| |k net pid fuel|]; cbn [sys_step]; [| | | |congruence].
  - unfold alike_but_disk. cbn. rewrite E3. auto 10.
  - rewrite E2, E3, E1. destruct (sy_dead t) eqn:D; [exact A|]. destruct (nth_error (sy_mail t) k) as [m|]; [|exact A].
    destruct (handle p found shuffle (sy_actor t) m) as [[a es]| |]; [| |exact A]; unfold alike_but_disk; cbn; rewrite ?E3, ?E4, ?E7; auto 10.
  - rewrite E4, E5, E6. destruct (sy_queue t) as [|q rest] eqn:Q; [exact A|]. destruct (List.length (sy_working t) <? sy_workers t)%nat; [|exact A].
    unfold alike_but_disk. cbn. rewrite ?E5. auto 10.
  - rewrite E5. destruct (nth_error (sy_working t) k) as [q|]; [|exact A]. rewrite E6.
    destruct (download sha1 p fuel net pid (rq_endpoint q) (rq_info q) (rq_idx q)) as [[|]| |]; [| | |exact A]; unfold alike_but_disk; cbn; rewrite ?E3; auto 10.
Qed.
Lemma alike_run : forall sha1 p cwd ops s t, alike_but_disk s t -> alike_but_disk (sys_run_v sha1 p cwd s ops) (sys_run sha1 p cwd t (map fst ops)).
Proof.
  intros sha1 p cwd ops. induction ops as [|[o vs] ops IH]; intros s t A; [exact A|]. unfold sys_run_v, sys_run in *. cbn [fold_left map fst]. apply IH.
  destruct (is_write o) as [->|N].
  - eapply alike_trans; [apply alike_sym, write_alike_v|]. eapply alike_trans; [exact A|apply write_alike].
  - rewrite (other_step _ _ _ _ _ _ N). apply alike_step; assumption.
Qed.
Lemma c87_unnoticed : forall sha1 p cwd ih d ops,
  alike_but_disk (sys_run_v sha1 p cwd (sys_init ih d) ops) (sys_run sha1 p cwd (sys_init ih d) (map fst ops)).
Proof. intros. apply alike_run, alike_refl. Qed.

(** ** A disk that takes everything *)
Lemma try_files_all : forall ws vs cwd d, (forall k, vs k = VAll) ->
  try_files vs cwd d ws = match run_writers cwd d ws with Ret d' => (true, d') | _ => (false, left_by_all cwd d ws) end.
Proof.
  induction ws as [|w ws IH]; intros vs cwd d V; [reflexivity|]. cbn [try_files run_writers left_by_all]. rewrite (V O). cbn [try_file].
  fold (write_to_filesystem cwd d w). destruct (write_to_filesystem cwd d w) as [d'| |]; cbn [obind]; [|reflexivity|reflexivity].
  rewrite IH by (intros; apply V). reflexivity.
Qed.
Lemma uadd_ends : forall p a b, uadd p a b <> OutOfFuel.
Proof. intros p a b. unfold uadd. destruct (a + b <? two64)%N; [discriminate|]. destruct p; discriminate. Qed.
Lemma usub_ends : forall p a b, usub p a b <> OutOfFuel.
Proof. intros p a b. unfold usub. destruct (b <=? a)%N; [discriminate|]. destruct p; discriminate. Qed.
Lemma sliceN_ends : forall A (l : list A) a b, sliceN l a b <> OutOfFuel.
Proof. intros A l a b. unfold sliceN. destruct ((a <=? b)%N && (b <=? lenN l)%N); discriminate. Qed.
Lemma bind_ends : forall A B (m : outcome A) (k : A -> outcome B), m <> OutOfFuel -> (forall x, k x <> OutOfFuel) -> obind m k <> OutOfFuel.
Proof. intros A B [x| |] k M K; cbn [obind]; [apply K|discriminate|congruence]. Qed.
Lemma writers_end : forall p files piece idx plen, get_file_writers p files piece idx plen <> OutOfFuel.
Proof.
  intros p files piece idx plen. unfold get_file_writers. apply bind_ends.
  - unfold file_parser_new, umul. destruct (idx * plen <? two64)%N; [discriminate|]. destruct p; discriminate.
  - intros s. generalize (@nil file_writer) as acc. revert s. induction files as [|f files IH]; intros s acc; [discriminate|]. cbn [file_writers_loop].
    apply bind_ends; [apply bind_ends; [apply uadd_ends|discriminate]|]. intros s1. destruct (is_piece_in_file s1); [|apply IH].
    apply bind_ends; [apply bind_ends; [apply uadd_ends|discriminate]|]. intros s2.
    do 2 (apply bind_ends; [apply bind_ends; [apply usub_ends|intros; apply usub_ends]|intros ?]).
    do 2 (apply bind_ends; [apply usub_ends|intros ?]). apply bind_ends; [apply sliceN_ends|]. intros data.
    apply bind_ends; [apply bind_ends; [apply uadd_ends|discriminate]|]. intros [|]; [apply IH|discriminate].
Qed.
Lemma run_ends : forall cwd ws d, run_writers cwd d ws <> OutOfFuel.
Proof. intros cwd. induction ws as [|w ws IH]; intros d; [discriminate|]. cbn [run_writers]. apply bind_ends; [apply wfs_outcome|auto]. Qed.
Lemma step_all : forall sha1 p cwd s o, (forall k, snd o k = VAll) -> sys_step_v sha1 p cwd s o = sys_step sha1 p cwd s (fst o).
Proof.
  intros sha1 p cwd s [o vs] V. cbn [fst snd] in *. destruct (is_write o) as [->|N]; [|apply other_step, N].
  unfold sys_step_v. cbn [fst snd sys_step]. destruct (sy_writer_dead s); [reflexivity|]. destruct (sy_writer s) as [|r rest]; [reflexivity|].
  unfold try_write, write, write_left. pose proof (writers_end p (rd_files r) (rd_piece r) (rd_idx r) (rd_piece_length r)) as WE.
  destruct (get_file_writers p (rd_files r) (rd_piece r) (rd_idx r) (rd_piece_length r)) as [ws| |]; cbn [obind]; [|reflexivity|congruence].
  rewrite try_files_all by exact V. pose proof (run_ends cwd ws (sy_disk s)) as RE. destruct (run_writers cwd (sy_disk s) ws); [reflexivity|reflexivity|congruence].
Qed.
Lemma c87_all : forall sha1 p cwd ops s, Forall (fun o => forall k, snd o k = VAll) ops -> sys_run_v sha1 p cwd s ops = sys_run sha1 p cwd s (map fst ops).
Proof.
  intros sha1 p cwd. induction ops as [|o ops IH]; intros s F; [reflexivity|]. inversion F as [|? ? F1 F2]; subst. unfold sys_run_v, sys_run in *. cbn [fold_left map].
  rewrite step_all by exact F1. apply IH, F2.
Qed.

(** ** What a write leaves behind *)
Lemma made_interrupted : forall p cwd files plen T f d1 names pre rest d2, In f files -> f_path f = pre ++ names ++ rest -> rest <> [] ->
  Forall plain_name names -> interrupted p cwd files plen T d1 d2 -> interrupted p cwd files plen T d1 (walk_made d2 (cwd ++ pre) names).
Proof.
  intros p cwd files plen T f d1. induction names as [|n names IH]; intros pre rest d2 I E NR F H; [exact H|]. inversion F as [|? ? Fn Ft]; subst.
  destruct Fn as (N1 & N2 & N3 & N4). cbn [walk_made].
  replace (bytes_eqb n [] || bytes_eqb n dot) with false by (symmetry; apply Bool.orb_false_iff; split; apply Bool.not_true_iff_false; intros X; apply bytes_eqb_eq in X; congruence).
  replace (bytes_eqb n dotdot) with false by (symmetry; apply Bool.not_true_iff_false; intros X; apply bytes_eqb_eq in X; congruence).
  rewrite <- app_assoc. assert (E' : f_path f = (pre ++ [n]) ++ names ++ rest) by (rewrite E, <- app_assoc; reflexivity).
  destruct (d2 (cwd ++ pre ++ [n])) as [[|c]|] eqn:X; [exact (IH _ _ _ I E' NR Ft H)|exact H|].
  refine (IH _ _ _ I E' NR Ft _). refine (int_mkdir _ _ _ _ _ _ _ f _ (names ++ rest) H I E' _ _ X).
  - destruct pre; discriminate.
  - destruct names; [exact NR|discriminate].
Qed.
Lemma sane_dirs : forall path : list bytes, sane_path path -> @eq (list bytes) (removelast (rev (drop_stays (rev (split_slash (join_slash path)))))) (removelast path) /\
  existsb (existsb (N.eqb 0)) (removelast path) = false /\ Forall plain_name (removelast path).
Proof.
  intros path S. destruct (sane_text path S) as (E & _). rewrite E. destruct S as [NE F]. split; [|split].
  - f_equal. rewrite (path_split path NE) at 1. rewrite rev_app_distr. cbn [rev app drop_stays].
    assert (L : sane_name (last path [])).
    { rewrite Forall_forall in F. apply F. rewrite (path_split path NE) at 2. apply in_or_app. right. left. reflexivity. }
    destruct L as (L1 & _ & _ & L4 & _).
    replace (bytes_eqb (last path []) [] || bytes_eqb (last path []) dot) with false
      by (symmetry; apply Bool.orb_false_iff; split; apply Bool.not_true_iff_false; intros X; apply bytes_eqb_eq in X; [congruence|apply L4; exact X]).
    change (last path [] :: rev (removelast path)) with ([last path []] ++ rev (removelast path)). rewrite rev_app_distr, rev_involutive. cbn [rev app]. symmetry. apply path_split, NE.
  - rewrite (path_split path NE) in F. apply Forall_app in F as [F _]. apply Bool.not_true_iff_false. intros X. apply existsb_exists in X as (n & I & X).
    rewrite Forall_forall in F. destruct (F n I) as (_ & _ & Z & _). apply existsb_exists in X as (b & I2 & X). apply N.eqb_eq in X. subst b. auto.
  - rewrite (path_split path NE) in F. apply Forall_app in F as [F _]. eapply Forall_impl; [|exact F]. exact sane_plain.
Qed.
Lemma no_slash_first : forall path (cwd : loc), sane_path path -> (match join_slash path with b :: _ => if (b =? 47)%N then [] else cwd | [] => cwd end) = cwd.
Proof.
  intros path cwd S. destruct (sane_text path S) as (_ & _ & _ & E). destruct (join_slash path); [reflexivity|]. rewrite E. reflexivity.
Qed.
Lemma firstn_dirs : forall (path : list bytes) k, path <> [] -> exists rest, path = firstn k (removelast path) ++ rest /\ rest <> [].
Proof.
  intros path k NE. exists (skipn k (removelast path) ++ [last path []]). split.
  - rewrite app_assoc, firstn_skipn. apply path_split, NE.
  - destruct (skipn k (removelast path)); discriminate.
Qed.
Lemma try_interrupted : forall p cwd files plen T i ws w v d1 d2, (i < piece_count (lenN T) plen)%N ->
  get_file_writers p files (torrent_piece T plen i) i plen = Ret ws -> In w ws -> sane_path (fw_path w) -> (exists f, In f files /\ f_path f = fw_path w) ->
  interrupted p cwd files plen T d1 d2 -> interrupted p cwd files plen T d1 (snd (try_file v cwd d2 w)).
Proof.
  intros p cwd files plen T i ws w v d1 d2 Hi GW I S (f & If & EP) H.
  destruct (sane_dirs _ S) as (SD & NZ & PL).
  assert (MADE : forall k, interrupted p cwd files plen T d1 (walk_made d2 cwd (firstn k (removelast (fw_path w))))).
  { intros k. destruct (firstn_dirs (fw_path w) k (proj1 S)) as (rest & E & NR). rewrite <- (app_nil_r cwd) at 2.
    refine (made_interrupted _ _ _ _ _ f _ _ [] rest _ If _ NR _ H); [rewrite EP; exact E|].
    rewrite <- (firstn_skipn k (removelast (fw_path w))) in PL. apply Forall_app in PL. apply PL. }
  assert (LEFT : interrupted p cwd files plen T d1 (left_by cwd d2 w)).
  { unfold left_by. cbv zeta. rewrite SD, NZ, (no_slash_first _ _ S). rewrite <- (firstn_all (removelast (fw_path w))). apply MADE. }
  assert (ROOM : forall n, interrupted p cwd files plen T d1 (match write_to_filesystem_n n cwd d2 w with Ret d' => d' | _ => left_by cwd d2 w end)).
  { intros n. destruct (write_to_filesystem_n n cwd d2 w) as [d'| |] eqn:E; [|exact LEFT|exact LEFT]. exact (int_write _ _ _ _ _ _ _ _ i ws w n H Hi GW I E). }
  destruct v as [|n|k| |]; cbn [try_file snd].
  - specialize (ROOM (List.length (fw_piece w))). destruct (write_to_filesystem_n _ cwd d2 w); exact ROOM.
  - specialize (ROOM n). destruct (write_to_filesystem_n _ cwd d2 w); exact ROOM.
  - rewrite SD, NZ, (no_slash_first _ _ S). apply MADE.
  - exact LEFT.
  - specialize (ROOM O). destruct (write_to_filesystem_n _ cwd d2 w); exact ROOM.
Qed.
Lemma int_trans : forall p cwd files plen T d1 d2 d3, interrupted p cwd files plen T d1 d2 -> interrupted p cwd files plen T d2 d3 -> interrupted p cwd files plen T d1 d3.
Proof.
  intros p cwd files plen T d1 d2 d3 A B. induction B as [d|d2 d3 d4 i ws w n H IH Hi E I W|d2 d3 f q r H IH Hf E Nq Nr N]; [exact A| |].
  - exact (int_write _ _ _ _ _ _ _ _ i ws w n (IH A) Hi E I W).
  - exact (int_mkdir _ _ _ _ _ _ _ f q r (IH A) Hf E Nq Nr N).
Qed.

(** ** Bytes that are left alone *)
Definition kept (cwd : loc) (files : list file) (plen idx : N) (d1 d2 : fs) : Prop :=
  left_alone cwd files plen idx d1 d2 /\
  forall k f, nth_error files k = Some f -> (List.length (text_at d1 (cwd ++ f_path f)) <= List.length (text_at d2 (cwd ++ f_path f)))%nat.
Lemma kept_refl : forall cwd files plen idx d, kept cwd files plen idx d d.
Proof. intros cwd files plen idx d. split; [intros k f j b _ _ _ H; auto|auto]. Qed.
Lemma kept_trans : forall cwd files plen idx d1 d2 d3, kept cwd files plen idx d1 d2 -> kept cwd files plen idx d2 d3 -> kept cwd files plen idx d1 d3.
Proof.
  intros cwd files plen idx d1 d2 d3 [A LA] [B LB]. split.
  - intros k f j b K J G H. destruct (B k f j b K J G H) as [C|[C D]]; [exact (A k f j b K J G C)|]. right. split; [exact C|]. specialize (LA k f K). lia.
  - intros k f K. specialize (LA k f K). specialize (LB k f K). lia.
Qed.
Lemma kept_same : forall cwd files plen idx d1 d2, (forall l, text_at d2 l = text_at d1 l) -> kept cwd files plen idx d1 d2.
Proof. intros cwd files plen idx d1 d2 E. split; [intros k f j b K J G H; rewrite E in H; auto|]. intros k f K. rewrite E. lia. Qed.
Lemma made_text : forall names d at_ l, text_at (walk_made d at_ names) l = text_at d l.
Proof. intros names d at_ l. unfold text_at. destruct (made_changes names d at_ l) as [->|[-> ->]]; reflexivity. Qed.
Lemma left_text : forall cwd d w l, text_at (left_by cwd d w) l = text_at d l.
Proof. intros cwd d w l. unfold left_by. cbv zeta. destruct (existsb _ _); [reflexivity|apply made_text]. Qed.
Lemma write_kept : forall p cwd files plen T i ws w n idx d d2, total_length files = lenN T -> (lenN T < 2 ^ 64)%N -> (0 < plen)%N -> good_files files ->
  (i < piece_count (lenN T) plen)%N -> i <> idx -> get_file_writers p files (torrent_piece T plen i) i plen = Ret ws -> In w ws ->
  write_to_filesystem_n n cwd d w = Ret d2 -> kept cwd files plen idx d d2.
Proof.
  intros p cwd files plen T i ws w n idx d d2 TL L64 PP G Hi NI GW I W.
  destruct (piece_length T plen i PP Hi) as [Pi PL].
  assert (NE : torrent_piece T plen i <> []) by (intros E; rewrite E in PL; unfold lenN in *; cbn [List.length] in PL; lia).
  destruct (c24_placement p files (torrent_piece T plen i) i plen ws NE ltac:(lia) ltac:(lia) GW) as [PLC _].
  destruct (PLC w I) as (k & f & Hk & EP & B & POS).
  assert (S : sane_path (fw_path w)).
  { rewrite EP. destruct G as [F _]. rewrite Forall_forall in F. apply F. eapply nth_error_In; eauto. }
  destruct (wfs_spec _ _ _ _ _ S W) as (_ & _ & _ & S2 & S3). rewrite EP in S2, S3.
  assert (OTH : forall k' g, nth_error files k' = Some g -> k' <> k -> text_at d2 (cwd ++ f_path g) = text_at d (cwd ++ f_path g)).
  { intros k' g Hk' N. unfold text_at. rewrite S3; [reflexivity| |].
    - intros Eq. apply app_inv_head in Eq. destruct G as [_ G]. apply (G k' k g f Hk' Hk N). exists []. now rewrite app_nil_r.
    - intros q r Eq _ _ El. apply app_inv_head in El. destruct G as [_ G]. apply (G k' k g f Hk' Hk N). exists r. now rewrite El. }
  assert (OWN : text_at d2 (cwd ++ f_path f) = write_at (text_at d (cwd ++ f_path f)) (fw_start w) (firstn n (fw_piece w))).
  { unfold text_at. rewrite S2. reflexivity. }
  split.
  - intros k' g j b Hk' J GI H. destruct (Nat.eq_dec k' k) as [->|N]; [|rewrite (OTH k' g Hk' N) in H; auto].
    rewrite Hk in Hk'. injection Hk' as <-. rewrite OWN in H. destruct (write_at_byte _ _ _ _ _ H) as [[R X]|[X|X]]; [|auto|auto].
    exfalso. apply NI. rewrite firstn_length in R. destruct (POS (j - N.to_nat (fw_start w))%nat ltac:(lia)) as [LO EQ].
    rewrite <- GI. apply (N.div_unique _ plen i (file_start files k + N.of_nat j - i * plen)%N); [|lia].
    assert (HI : (N.to_nat (file_start files k + fw_start w + N.of_nat (j - N.to_nat (fw_start w)) - i * plen) < List.length (torrent_piece T plen i))%nat).
    { apply nth_error_Some. rewrite <- EQ. apply nth_error_Some. lia. }
    unfold lenN in PL. lia.
  - intros k' g Hk'. destruct (Nat.eq_dec k' k) as [->|N]; [|rewrite (OTH k' g Hk' N); lia].
    rewrite Hk in Hk'. injection Hk' as <-. rewrite OWN. pose proof (write_at_length (text_at d (cwd ++ f_path f)) (fw_start w) (firstn n (fw_piece w))) as L.
    unfold lenN in L. destruct (firstn n (fw_piece w)); lia.
Qed.
Lemma try_kept : forall p cwd files plen T i ws w v idx d, total_length files = lenN T -> (lenN T < 2 ^ 64)%N -> (0 < plen)%N -> good_files files ->
  (i < piece_count (lenN T) plen)%N -> i <> idx -> get_file_writers p files (torrent_piece T plen i) i plen = Ret ws -> In w ws ->
  kept cwd files plen idx d (snd (try_file v cwd d w)).
Proof.
  intros p cwd files plen T i ws w v idx d TL L64 PP G Hi NI GW I.
  assert (ROOM : forall n, kept cwd files plen idx d (match write_to_filesystem_n n cwd d w with Ret d' => d' | _ => left_by cwd d w end)).
  { intros n. destruct (write_to_filesystem_n n cwd d w) as [d'| |] eqn:E; [|apply kept_same, left_text|apply kept_same, left_text].
    exact (write_kept _ _ _ _ _ i ws w n idx d d' TL L64 PP G Hi NI GW I E). }
  destruct v as [|n|k| |]; cbn [try_file snd].
  - specialize (ROOM (List.length (fw_piece w))). destruct (write_to_filesystem_n _ cwd d w); exact ROOM.
  - specialize (ROOM n). destruct (write_to_filesystem_n _ cwd d w); exact ROOM.
  - destruct (existsb _ _); [apply kept_refl|apply kept_same, made_text].
  - apply kept_same, left_text.
  - specialize (ROOM O). destruct (write_to_filesystem_n _ cwd d w); exact ROOM.
Qed.
Lemma try_files_both : forall p cwd files plen T i ws0, total_length files = lenN T -> (lenN T < 2 ^ 64)%N -> (0 < plen)%N -> good_files files ->
  (i < piece_count (lenN T) plen)%N -> get_file_writers p files (torrent_piece T plen i) i plen = Ret ws0 ->
  forall ws vs d, (forall w, In w ws -> In w ws0) ->
    interrupted p cwd files plen T d (snd (try_files vs cwd d ws)) /\ forall idx, i <> idx -> kept cwd files plen idx d (snd (try_files vs cwd d ws)).
Proof.
  intros p cwd files plen T i ws0 TL L64 PP G Hi GW. induction ws as [|w ws IH]; intros vs d SUB; [split; [constructor|intros; apply kept_refl]|].
  cbn [try_files]. assert (I : In w ws0) by (apply SUB; left; reflexivity).
  destruct (writers_right p files T plen i TL L64 PP Hi) as (ws' & E' & _ & _ & _ & MT). assert (ws' = ws0) by congruence. subst ws'.
  destruct (MT w I) as (k & f & Hk & EP & _). pose proof (nth_error_In _ _ Hk) as If.
  assert (S : sane_path (fw_path w)) by (rewrite EP; destruct G as [F _]; rewrite Forall_forall in F; auto).
  pose proof (try_interrupted p cwd files plen T i ws0 w (vs O) d d Hi GW I S ltac:(exists f; auto) (int_nothing _ _ _ _ _ d)) as A.
  pose proof (fun idx NI => try_kept p cwd files plen T i ws0 w (vs O) idx d TL L64 PP G Hi NI GW I) as B.
  destruct (try_file (vs O) cwd d w) as [ok d']. cbn [snd] in A, B. destruct ok; [|split; assumption].
  destruct (IH (fun k => vs (Datatypes.S k)) d' ltac:(intros; apply SUB; right; assumption)) as [A2 B2]. split; [exact (int_trans _ _ _ _ _ _ _ _ A A2)|].
  intros idx NI. exact (kept_trans _ _ _ _ _ _ _ (B idx NI) (B2 idx NI)).
Qed.

(** ** Runs *)
Definition right_ready (files : list file) (plen : N) (T : bytes) (r : piece_ready) : Prop :=
  rd_files r = files /\ rd_piece_length r = plen /\ (rd_idx r < piece_count (lenN T) plen)%N /\ rd_piece r = torrent_piece T plen (rd_idx r).
Lemma other_writer : forall sha1 p cwd s o, o <> OWrite -> let s' := sys_step sha1 p cwd s o in
  exists rs, to_writer (sy_trace s') = to_writer (sy_trace s) ++ rs /\ sy_writer s' = sy_writer s ++ rs /\ sy_disk s' = sy_disk s /\ sy_writer_dead s' = sy_writer_dead s.
Proof.
  intros sha1 p cwd s o N s'.
  destruct (step_trace sha1 p cwd s o) as [(ET & EA)|(k & found & shuffle & m & a & es & -> & D & Hm & EH & ET & EA & EM & EW & EQ & EK & ED & EWD & EWK)].
  - destruct (step_writer_same sha1 p cwd s o N ET EA) as (EW & ED & EWD). exists []. unfold s'. rewrite ET, EW, ED, EWD, !app_nil_r. auto.
  - exists (readies_of es). unfold s'. rewrite ET, EW, ED, EWD, trace_app_writer. auto.
Qed.
Lemma trace_grows : forall sha1 p cwd ops s, exists rs, to_writer (sy_trace (sys_run_v sha1 p cwd s ops)) = to_writer (sy_trace s) ++ rs.
Proof.
  intros sha1 p cwd. induction ops as [|[o vs] ops IH]; intros s; [exists []; now rewrite app_nil_r|]. unfold sys_run_v in *. cbn [fold_left].
  destruct (IH (sys_step_v sha1 p cwd s (o, vs))) as [rs E]. destruct (is_write o) as [->|N].
  - pose proof (write_alike_v sha1 p cwd s vs) as (_ & _ & _ & _ & _ & _ & T). rewrite <- T in E. eauto.
  - rewrite (other_step _ _ _ _ _ _ N) in *. destruct (other_writer sha1 p cwd s o N) as (rs' & E' & _). rewrite E' in E. exists (rs' ++ rs). rewrite E. apply app_assoc_reverse.
Qed.
Lemma write_step : forall sha1 p cwd s vs r rest, sy_writer_dead s = false -> sy_writer s = r :: rest -> let s1 := sys_step_v sha1 p cwd s (OWrite, vs) in
  sy_trace s1 = sy_trace s /\ sy_writer s1 = rest /\ sy_disk s1 = snd (try_write vs p cwd (sy_disk s) (rd_piece r) (rd_idx r) (rd_files r) (rd_piece_length r)).
Proof.
  intros sha1 p cwd s vs r rest D Q. unfold sys_step_v. cbn [fst snd]. rewrite D, Q. destruct (try_write _ _ _ _ _ _ _ _). cbn. auto.
Qed.
Lemma write_idle : forall sha1 p cwd s vs, sy_writer_dead s = true \/ sy_writer s = [] -> sys_step_v sha1 p cwd s (OWrite, vs) = s.
Proof. intros sha1 p cwd s vs [H|H]; unfold sys_step_v; cbn [fst snd]; rewrite H; [reflexivity|]. destruct (sy_writer_dead s); reflexivity. Qed.
Lemma run_facts : forall sha1 p cwd files plen T, total_length files = lenN T -> (lenN T < 2 ^ 64)%N -> (0 < plen)%N -> good_files files ->
  forall ops s done, let s' := sys_run_v sha1 p cwd s ops in to_writer (sy_trace s) = done ++ sy_writer s ->
  Forall (right_ready files plen T) (to_writer (sy_trace s')) -> NoDup (map rd_idx (to_writer (sy_trace s'))) ->
  interrupted p cwd files plen T (sy_disk s) (sy_disk s') /\ forall idx, In idx (map rd_idx done) -> kept cwd files plen idx (sy_disk s) (sy_disk s').
Proof.
  intros sha1 p cwd files plen T TL L64 PP G. induction ops as [|[o vs] ops IH]; intros s done s' E F ND; [split; [constructor|intros; apply kept_refl]|].
  unfold s' in *. clear s'. unfold sys_run_v in *. cbn [fold_left] in *. destruct (trace_grows sha1 p cwd ops (sys_step_v sha1 p cwd s (o, vs))) as [rs GR]. unfold sys_run_v in GR.
  destruct (is_write o) as [->|N].
  - destruct (sy_writer_dead s) eqn:WD; [rewrite write_idle in F, ND |- * by auto; exact (IH s done E F ND)|].
    destruct (sy_writer s) as [|r rest] eqn:Q; [rewrite write_idle in F, ND |- * by auto; refine (IH s done _ F ND); rewrite Q; exact E|].
    destruct (write_step sha1 p cwd s vs r rest WD Q) as (T1 & W1 & D1). set (s1 := sys_step_v sha1 p cwd s (OWrite, vs)) in *.
    rewrite T1, E in GR.
    assert (RR : right_ready files plen T r).
    { rewrite Forall_forall in F. apply F. rewrite GR. apply in_or_app. left. apply in_or_app. right. left. reflexivity. }
    destruct RR as (R1 & R2 & R3 & R4). rewrite R1, R2, R4 in D1.
    destruct (writers_right p files T plen (rd_idx r) TL L64 PP R3) as (ws & GW & _). unfold try_write in D1. rewrite GW in D1.
    destruct (try_files_both p cwd files plen T (rd_idx r) ws TL L64 PP G R3 GW ws vs (sy_disk s) ltac:(auto)) as [A B].
    rewrite <- D1 in A, B.
    destruct (IH s1 (done ++ [r]) ltac:(rewrite T1, W1, E, <- app_assoc; reflexivity) F ND) as [A2 B2].
    split; [exact (int_trans _ _ _ _ _ _ _ _ A A2)|]. intros idx I.
    assert (NI : rd_idx r <> idx).
    { intros <-. rewrite GR, !map_app in ND. cbn [map] in ND. rewrite <- app_assoc in ND. cbn [app] in ND. apply NoDup_remove_2 in ND. apply ND. apply in_or_app. auto. }
    refine (kept_trans _ _ _ _ _ _ _ (B idx NI) (B2 idx _)). rewrite map_app. apply in_or_app. auto.
  - rewrite (other_step _ _ _ _ _ _ N) in *. destruct (other_writer sha1 p cwd s o N) as (rs' & E1 & E2 & E3 & _).
    destruct (IH (sys_step sha1 p cwd s o) done ltac:(rewrite E1, E2, E; apply app_assoc_reverse) F ND) as [A B]. rewrite E3 in A, B. auto.
Qed.

(** What is handed to the writer, whatever the writer makes of it. *)
Lemma suffix_v : forall sha1 p cwd ops s done, to_writer (sy_trace s) = done ++ sy_writer s ->
  exists more, to_writer (sy_trace (sys_run_v sha1 p cwd s ops)) = (done ++ more) ++ sy_writer (sys_run_v sha1 p cwd s ops).
Proof.
  intros sha1 p cwd. induction ops as [|[o vs] ops IH]; intros s done E; [exists []; rewrite app_nil_r; exact E|]. unfold sys_run_v in *. cbn [fold_left].
  destruct (is_write o) as [->|N].
  - destruct (sy_writer_dead s) eqn:WD; [rewrite write_idle by auto; exact (IH s done E)|].
    destruct (sy_writer s) as [|r rest] eqn:Q; [rewrite write_idle by auto; apply IH; rewrite Q; exact E|].
    destruct (write_step sha1 p cwd s vs r rest WD Q) as (T1 & W1 & D1). set (s1 := sys_step_v sha1 p cwd s (OWrite, vs)) in *.
    destruct (IH s1 (done ++ [r]) ltac:(rewrite T1, W1, E, <- app_assoc; reflexivity)) as [more M]. exists (r :: more). rewrite M, <- !app_assoc. reflexivity.
  - rewrite (other_step _ _ _ _ _ _ N). destruct (other_writer sha1 p cwd s o N) as (rs & E1 & E2 & _). apply IH. rewrite E1, E2, E. apply app_assoc_reverse.
Qed.
Lemma handed_right : forall sha1 p cwd ih d ops i files T, Forall (fun o => op_ok (fst o)) ops -> let s := sys_run_v sha1 p cwd (sys_init ih d) ops in
  ta_info (sy_actor s) = Some i -> describes sha1 i files T ->
  collision sha1 (i_piece_length i) T s \/
  (Forall (right_ready files (i_piece_length i) T) (to_writer (sy_trace s)) /\ NoDup (map rd_idx (to_writer (sy_trace s)))).
Proof.
  intros sha1 p cwd ih d ops i files T OK s EI DE. destruct (c87_unnoticed sha1 p cwd ih d ops) as (A1 & _ & _ & _ & _ & _ & A7). fold s in A1, A7.
  set (t := sys_run sha1 p cwd (sys_init ih d) (map fst ops)) in *.
  assert (R : reached sha1 p cwd ih d t). { exists (map fst ops). split; [|reflexivity]. apply Forall_map. exact OK. }
  pose proof (inv_reached _ _ _ _ _ _ R) as I. unfold inv in I. rewrite <- A1, EI in I.
  destruct I as (D & W5 & n & fs & q & lost & PO & GF & EP & PM & LW & NI & II & FQ0 & FM0 & FR & FT).
  pose proof (describes_count sha1 p i files T n DE PO) as EN.
  destruct DE as (GF' & TL & L64 & PP & GD & HS). apply c11_files in GF'. assert (fs = files) by congruence. subst fs.
  destruct (no_collision sha1 (i_piece_length i) T s) as [C|NC]; [auto|]. right. rewrite A7 in *. split.
  - apply Forall_forall. intros r J. rewrite Forall_forall in FR. destruct (FR r J) as (F1 & F2 & F3 & F4). subst n.
    split; [exact F1|]. split; [exact F2|]. split; [exact F3|]. apply NC; [exact J|]. rewrite F4. apply HS, F3.
  - pose proof (Permutation_NoDup (Permutation_sym PM) (numbers_nodup n)) as ND. unfold completed in ND.
    apply NoDup_app_r, NoDup_app_r in ND. apply NoDup_app_l in ND. exact ND.
Qed.
Lemma c87_no_damage : forall sha1 p cwd ih d s i files T, reached_v sha1 p cwd ih d s ->
  ta_info (sy_actor s) = Some i -> describes sha1 i files T -> disk_ready cwd files d ->
  collision sha1 (i_piece_length i) T s \/
  (disk_ready cwd files (sy_disk s) /\ accounted cwd files T d (sy_disk s) /\ (forall g, holds cwd files T d g -> holds cwd files T (sy_disk s) g) /\
   (forall l, unrelated cwd files l -> sy_disk s l = d l)).
Proof.
  intros sha1 p cwd ih d s i files T (ops & OK & ->) EI DE DR.
  destruct (handed_right sha1 p cwd ih d ops i files T OK EI DE) as [C|[F ND]]; [auto|]. right.
  destruct DE as (GF' & TL & L64 & PP & GD & HS).
  destruct (run_facts sha1 p cwd files (i_piece_length i) T TL L64 PP GD ops (sys_init ih d) [] eq_refl F ND) as [INT _].
  destruct (c26_ready p cwd files (i_piece_length i) T _ _ TL L64 PP GD DR INT) as (A & B & C). cbn [sys_init sy_disk] in *.
  split; [exact A|]. split; [exact (gap_c26 _ _ _ _ _ _ _ TL L64 PP GD INT)|]. auto.
Qed.
Lemma c87_never_again : forall sha1 p cwd ih d ops1 ops2 i files T, Forall (fun o => op_ok (fst o)) (ops1 ++ ops2) ->
  let s := sys_run_v sha1 p cwd (sys_init ih d) ops1 in let s' := sys_run_v sha1 p cwd s ops2 in
  ta_info (sy_actor s') = Some i -> describes sha1 i files T ->
  forall idx, In idx (completed s) -> ~ In idx (map rd_idx (sy_writer s)) ->
  collision sha1 (i_piece_length i) T s' \/ left_alone cwd files (i_piece_length i) idx (sy_disk s) (sy_disk s').
Proof.
  intros sha1 p cwd ih d ops1 ops2 i files T OK s s' EI DE idx CO NQ.
  assert (ES : s' = sys_run_v sha1 p cwd (sys_init ih d) (ops1 ++ ops2)) by (unfold s', s, sys_run_v; rewrite fold_left_app; reflexivity).
  rewrite ES in EI. destruct (handed_right sha1 p cwd ih d (ops1 ++ ops2) i files T OK EI DE) as [C|[F ND]]; [left; rewrite ES; exact C|]. right. rewrite <- ES in F, ND.
  destruct DE as (GF' & TL & L64 & PP & GD & HS).
  destruct (suffix_v sha1 p cwd ops1 (sys_init ih d) [] eq_refl) as [done E]. cbn [app] in E. fold s in E.
  destruct (run_facts sha1 p cwd files (i_piece_length i) T TL L64 PP GD ops2 s done E F ND) as [_ K]. apply K.
  unfold completed in CO. rewrite E, map_app in CO. apply in_app_or in CO as [CO|CO]; [exact CO|contradiction].
Qed.
Lemma c87_gives_up : forall sha1 p cwd s ops, sy_writer_dead s = true -> let s' := sys_run_v sha1 p cwd s ops in sy_disk s' = sy_disk s /\ sy_writer_dead s' = true.
Proof.
  intros sha1 p cwd s ops. revert s. induction ops as [|[o vs] ops IH]; intros s D; [cbn; auto|]. unfold sys_run_v in *. cbn [fold_left].
  destruct (is_write o) as [->|N]; [rewrite write_idle by auto; apply IH, D|]. rewrite (other_step _ _ _ _ _ _ N).
  destruct (other_writer sha1 p cwd s o N) as (rs & _ & _ & E3 & E4). destruct (IH (sys_step sha1 p cwd s o) ltac:(congruence)) as [X Y]. split; [congruence|exact Y].
Qed.
Lemma c87_restart : forall sha1 p p' cwd ih ih' d s s' i files T, reached_v sha1 p cwd ih d s ->
  ta_info (sy_actor s) = Some i -> describes sha1 i files T -> disk_ready cwd files d ->
  reached sha1 p' cwd ih' (sy_disk s) s' -> ta_info (sy_actor s') = Some i ->
  (forall idx, (idx < piece_count (lenN T) (i_piece_length i))%N -> In idx (written s')) ->
  collision sha1 (i_piece_length i) T s \/ collision sha1 (i_piece_length i) T s' \/
  ((forall k f, nth_error files k = Some f -> (0 < f_length f)%N -> sy_disk s' (cwd ++ f_path f) = Some (NFile (file_content T files k f))) /\
   (forall l, unrelated cwd files l -> sy_disk s' l = d l)).
Proof.
  intros sha1 p p' cwd ih ih' d s s' i files T R EI DE DR R' EI' ALL.
  destruct (c87_no_damage _ _ _ _ _ _ _ _ _ R EI DE DR) as [C|(DR1 & _ & _ & U1)]; [auto|]. right.
  destruct (c42 _ _ _ _ _ _ _ _ _ R' EI' DE DR1) as [C|(_ & _ & _ & U & FI)]; [auto|]. right.
  split; [exact (FI ALL)|]. intros l UN. rewrite (U l UN). exact (U1 l UN).
Qed.

(** ** When the writer ends *)
Definition cut (v : verdict) (w : file_writer) : file_writer :=
  match v with VShort n => {| fw_path := fw_path w; fw_start := fw_start w; fw_end := fw_end w; fw_piece := firstn n (fw_piece w) |} | _ => w end.
Fixpoint cuts (vs : nat -> verdict) (ws : list file_writer) : list file_writer :=
  match ws with [] => [] | w :: t => cut (vs O) w :: cuts (fun k => vs (Datatypes.S k)) t end.
Lemma cut_write : forall v cwd d w, ~ refused v ->
  try_file v cwd d w = match write_to_filesystem cwd d (cut v w) with Ret d' => (true, d') | _ => (false, left_by cwd d w) end.
Proof.
  intros v cwd d w R. destruct v as [|n|n| |]; try (exfalso; apply R; exact I); [reflexivity|]. unfold try_file, cut, write_to_filesystem, write_to_filesystem_n.
  cbn [fw_path fw_start fw_piece]. rewrite firstn_all. reflexivity.
Qed.
Lemma cut_right : forall files T k v w, right_write files T k w -> right_write files T k (cut v w).
Proof.
  intros files T k v w RW. destruct v as [|n|n| |]; try exact RW. destruct RW as (f & A & B & C & D). exists f. cbn [cut fw_path fw_start fw_piece].
  assert (L : (List.length (firstn n (fw_piece w)) <= List.length (fw_piece w))%nat) by (rewrite firstn_length; lia).
  split; [exact A|]. split; [exact B|]. split; [unfold lenN in *; lia|]. intros j J. rewrite <- D by lia. rewrite firstn_length in J.
  rewrite <- (firstn_skipn n (fw_piece w)) at 2. rewrite nth_error_app1; [reflexivity|rewrite firstn_length; lia].
Qed.
Lemma cuts_right : forall files T ws vs, Forall (fun w => exists k, right_write files T k w) ws -> Forall (fun w => exists k, right_write files T k w) (cuts vs ws).
Proof.
  intros files T. induction ws as [|w ws IH]; intros vs F; [constructor|]. inversion F as [|? ? [k RW] F']; subst. cbn [cuts].
  constructor; [exists k; apply cut_right; exact RW|auto].
Qed.
Lemma cuts_nth : forall ws vs k w, nth_error ws k = Some w -> nth_error (cuts vs ws) k = Some (cut (vs k) w).
Proof.
  induction ws as [|x ws IH]; intros vs k w E; [destruct k; discriminate|]. destruct k; cbn [cuts nth_error] in *; [congruence|]. exact (IH _ _ _ E).
Qed.
Lemma refused_dec : forall v, refused v \/ ~ refused v.
Proof. intros []; cbn; auto. Qed.
Lemma refused_file : forall v cwd d w, refused v -> fst (try_file v cwd d w) = false.
Proof. intros v cwd d w R. destruct v; try contradiction; cbn; try reflexivity. unfold try_file. destruct (write_to_filesystem_n _ _ _ _); reflexivity. Qed.
Lemma try_files_ok : forall cwd files T, total_length files = lenN T -> good_files files -> forall ws vs d, disk_ready cwd files d ->
  Forall (fun w => exists k, right_write files T k w) ws ->
  (fst (try_files vs cwd d ws) = false <-> exists k, (k < List.length ws)%nat /\ refused (vs k)) /\
  (fst (try_files vs cwd d ws) = true -> run_writers cwd d (cuts vs ws) = Ret (snd (try_files vs cwd d ws))).
Proof.
  intros cwd files T TL G. induction ws as [|w ws IH]; intros vs d R F.
  - cbn [try_files fst List.length]. split; [split; [discriminate|intros (k & L & _); lia]|reflexivity].
  - inversion F as [|? ? [k RW] F']; subst. cbn [try_files].
    destruct (refused_dec (vs O)) as [X|X].
    + pose proof (refused_file (vs O) cwd d w X) as Y. destruct (try_file (vs O) cwd d w) as [ok d']. cbn [fst] in Y. subst ok. cbn [fst snd List.length].
      split; [split; [intros _; exists O; split; [lia|exact X]|reflexivity]|discriminate].
    + rewrite (cut_write _ _ _ _ X).
      destruct (write_right (List.length (fw_piece (cut (vs O) w))) cwd files T k (cut (vs O) w) d TL G R (cut_right _ _ _ _ _ RW)) as (d1 & E1 & A1 & _).
      cbn [cuts run_writers]. unfold write_to_filesystem in *. rewrite E1. cbn [obind].
      destruct (IH (fun k => vs (Datatypes.S k)) d1 A1 F') as [P Q]. split; [|exact Q]. rewrite P. cbn [List.length]. split.
      * intros (j & L & Z). exists (Datatypes.S j). split; [lia|exact Z].
      * intros ([|j] & L & Z); [contradiction|]. exists j. split; [lia|exact Z].
Qed.
Lemma write_dead : forall sha1 p cwd s vs r rest, sy_writer_dead s = false -> sy_writer s = r :: rest ->
  sy_writer_dead (sys_step_v sha1 p cwd s (OWrite, vs)) = negb (fst (try_write vs p cwd (sy_disk s) (rd_piece r) (rd_idx r) (rd_files r) (rd_piece_length r))).
Proof. intros sha1 p cwd s vs r rest D Q. unfold sys_step_v. cbn [fst snd]. rewrite D, Q. destruct (try_write _ _ _ _ _ _ _ _). reflexivity. Qed.
Lemma nth_error_map_some : forall A B (f : A -> B) l k y, nth_error (map f l) k = Some y -> exists x, nth_error l k = Some x /\ f x = y.
Proof. intros A B f. induction l as [|x l IH]; intros [|k] y E; try discriminate; cbn in *; [injection E; eauto|auto]. Qed.
Lemma start_after : forall b files a fa, nth_error files a = Some fa -> (a < b)%nat -> (file_start files a + f_length fa <= file_start files b)%N.
Proof.
  unfold file_start. induction b as [|b IH]; intros files a fa Ha Lt; [lia|]. destruct files as [|x files]; [destruct a; discriminate|]. destruct a as [|a].
  - cbn in Ha. injection Ha as ->. cbn [firstn total_length]. lia.
  - cbn [nth_error] in Ha. cbn [firstn total_length]. specialize (IH files a fa Ha ltac:(lia)). lia.
Qed.
Lemma one_file : forall files a b fa fb g, nth_error files a = Some fa -> nth_error files b = Some fb ->
  (file_start files a <= g < file_start files a + f_length fa)%N -> (file_start files b <= g < file_start files b + f_length fb)%N -> a = b.
Proof.
  intros files a b fa fb g Ha Hb Ra Rb. destruct (Nat.lt_trichotomy a b) as [L|[E|L]]; [|exact E|].
  - pose proof (start_after b files a fa Ha L). lia.
  - pose proof (start_after a files b fb Hb L). lia.
Qed.
Lemma c87_errors : forall sha1 p cwd ih d s i files T vs r rest, reached_v sha1 p cwd ih d s ->
  ta_info (sy_actor s) = Some i -> describes sha1 i files T -> disk_ready cwd files d ->
  sy_writer_dead s = false -> sy_writer s = r :: rest ->
  let s1 := sys_step_v sha1 p cwd s (OWrite, vs) in let parts := split_piece files 0 (rd_idx r * i_piece_length i) (rd_piece r) in
  collision sha1 (i_piece_length i) T s \/
  ((sy_writer_dead s1 = true <-> exists k, (k < List.length parts)%nat /\ refused (vs k)) /\
   (sy_writer_dead s1 = false -> forall k path pos data j, nth_error parts k = Some (path, pos, data) -> (j < List.length data)%nat -> takes (vs k) j ->
      nth_error (text_at (sy_disk s1) (cwd ++ path)) (N.to_nat pos + j) = nth_error data j)).
Proof.
  intros sha1 p cwd ih d s i files T vs r rest RE EI DE DR WD Q s1 parts.
  destruct (c87_no_damage sha1 p cwd ih d s i files T RE EI DE DR) as [C|(RD & _)]; [auto|].
  destruct RE as (ops & OK & ES). subst s.
  destruct (handed_right sha1 p cwd ih d ops i files T OK EI DE) as [C|[F ND]]; [auto|]. right.
  destruct (suffix_v sha1 p cwd ops (sys_init ih d) [] eq_refl) as [more M]. rewrite Q in M. rewrite M in F. apply Forall_app in F as [_ F].
  inversion F as [|? ? (F1 & F2 & F3 & F4) _]; subst.
  set (s := sys_run_v sha1 p cwd (sys_init ih d) ops) in *.
  destruct DE as (GF' & TL & L64 & PP & GD & HS).
  destruct (writers_right p (rd_files r) T (i_piece_length i) (rd_idx r) TL L64 PP F3) as (ws & EW & RW & _).
  destruct (piece_length T (i_piece_length i) (rd_idx r) PP F3) as [PL1 PL2].
  destruct (c24_split p (rd_files r) (torrent_piece T (i_piece_length i) (rd_idx r)) (rd_idx r) (i_piece_length i)) as (ws' & EW' & VW & _).
  { intros Z. rewrite Z in PL2. unfold lenN at 1 in PL2. cbn in PL2. lia. } { rewrite TL. exact L64. } { lia. }
  assert (ws' = ws) by congruence. subst ws'.
  assert (EP : parts = map view ws) by (unfold parts; rewrite F4; symmetry; exact VW).
  destruct (try_files_ok cwd (rd_files r) T TL GD ws vs (sy_disk s) RD RW) as [P1 P2].
  destruct (write_step sha1 p cwd s vs r rest WD Q) as (_ & _ & DS). pose proof (write_dead sha1 p cwd s vs r rest WD Q) as DD. fold s1 in DS, DD.
  unfold try_write in DS, DD. rewrite F2, F4, EW in DS, DD. split.
  - rewrite DD, EP, map_length, <- P1. destruct (fst _); cbn; split; congruence.
  - intros AL k path pos data j Hk J TK. rewrite DD in AL. destruct (fst (try_files vs cwd (sy_disk s) ws)) eqn:OKK; [|discriminate]. specialize (P2 eq_refl).
    destruct (run_right cwd (rd_files r) T (cuts vs ws) (sy_disk s) TL GD RD (cuts_right _ _ _ _ RW)) as (d2 & R1 & R2 & R3 & R4 & _).
    rewrite P2 in R1. injection R1 as R1. rewrite DS, R1. rewrite EP in Hk. apply nth_error_map_some in Hk as (w & Hw & VV). unfold view in VV. injection VV as <- <- <-.
    rewrite Forall_forall in RW. destruct (RW w (nth_error_In _ _ Hw)) as (q & f & Hq & PQ & BQ & DQ). rewrite (DQ j J).
    assert (HO : holds cwd (rd_files r) T d2 (file_start (rd_files r) q + fw_start w + N.of_nat j)).
    { apply R4. intros k2 f2 H2 G2. assert (k2 = q) by (eapply (one_file (rd_files r)); [exact H2|exact Hq|exact G2|unfold lenN in BQ; lia]). subst k2.
      assert (f2 = f) by congruence. subst f2. exists (cut (vs k) w). split; [eapply nth_error_In, cuts_nth; exact Hw|].
      unfold lenN. destruct (vs k); cbn [takes] in TK; try contradiction; cbn [cut fw_path fw_start fw_piece]; (split; [exact PQ|]); rewrite ?firstn_length; lia. }
    destruct (HO q f Hq ltac:(unfold lenN in BQ; lia)) as (c & Ec & Nc). unfold text_at. rewrite PQ, Ec.
    replace (N.to_nat (file_start (rd_files r) q + fw_start w + N.of_nat j - file_start (rd_files r) q)) with (N.to_nat (fw_start w) + j)%nat in Nc by lia.
    rewrite Nc. f_equal. lia.
Qed.
