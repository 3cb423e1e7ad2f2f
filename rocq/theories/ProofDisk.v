(** ProofDisk: proofs for PropDisk *)
From Coq Require Import Lia.
From Verif Require Import Base Utf8 ModelBencode ModelMessages ModelTorrent ModelWriter ModelTracker ModelStream
  ModelPeer ModelActors ModelCache ModelMain ProofBase SpecTorrent ProofTorrent SpecWriter ProofWriter SpecPieces
  SpecPeer ProofPeer SpecSystem ProofSystem SpecCache ProofCache2 SpecMain ProofMain SpecText ProofText SpecDisk.

(** ** Disks that only grow *)

Definition grow (d d' : fs) : Prop := kept_except (fun _ => False) d d'.

Lemma grow_refl : forall d, grow d d.
Proof. intros d l. split; [auto|]. intros c E. exists c. split; [auto|right; lia]. Qed.
Lemma grow_trans : forall a b c, grow a b -> grow b c -> grow a c.
Proof.
  intros a b c H1 H2 l. destruct (H1 l) as [D1 F1], (H2 l) as [D2 F2]. split; [auto|].
  intros x E. apply F1 in E as (y & E & [[]|L1]). apply F2 in E as (z & E & [[]|L2]). exists z. split; [auto|right; lia].
Qed.
Lemma kept_mono : forall (E E' : loc -> Prop) d d', (forall l, E l -> E' l) -> kept_except E d d' -> kept_except E' d d'.
Proof. intros E E' d d' H K l. destruct (K l) as [A B]. split; [auto|]. intros c Ec. apply B in Ec as (c' & Ec & [?|?]); eauto. Qed.
Lemma kept_trans : forall (E : loc -> Prop) a b c, kept_except E a b -> kept_except E b c -> kept_except E a c.
Proof.
  intros E a b c H1 H2 l. destruct (H1 l) as [D1 F1], (H2 l) as [D2 F2]. split; [auto|].
  intros x Ex. apply F1 in Ex as (y & Ex & L1). apply F2 in Ex as (z & Ex & L2). exists z. split; [auto|].
  destruct L1 as [?|L1]; [auto|]. destruct L2 as [?|L2]; [auto|right; lia].
Qed.
Lemma grow_same : forall d d', (forall l, d' l = d l) -> grow d d'.
Proof. intros d d' H l. rewrite H. apply grow_refl. Qed.

Lemma grow_write : forall d l c s x, (d l = None /\ c = [] \/ d l = Some (NFile c)) -> grow d (fs_set d l (NFile (write_at c s x))).
Proof.
  intros d l c s x H l'. unfold fs_set. destruct (loc_eqb l l') eqn:E; [|apply grow_refl].
  apply loc_eqb_eq in E. subst l'. destruct H as [[-> ->]| ->]; (split; [discriminate|]); [discriminate|].
  intros c0 E. injection E as <-. eexists. split; [reflexivity|]. right. rewrite write_at_length. destruct x; lia.
Qed.

(** ** A directory walk *)

Lemma made_changes : forall names d at_ l, walk_made d at_ names l = d l \/ (d l = None /\ walk_made d at_ names l = Some NDir).
Proof.
  induction names as [|n t IH]; intros d at_ l; cbn [walk_made]; [auto|].
  destruct (bytes_eqb n [] || bytes_eqb n dot); [auto|]. destruct (bytes_eqb n dotdot); [auto|]. cbv zeta.
  destruct (d (at_ ++ [n])) as [[|c]|] eqn:E; auto.
  destruct (IH (fs_set d (at_ ++ [n]) NDir) (at_ ++ [n]) l) as [H|[H1 H2]].
  - rewrite H. destruct (loc_eqb (at_ ++ [n]) l) eqn:Q; unfold fs_set; rewrite Q; [|auto]. apply loc_eqb_eq in Q. subst l. auto.
  - right. split; [|auto]. unfold fs_set in H1. destruct (loc_eqb (at_ ++ [n]) l); [discriminate|auto].
Qed.
Lemma made_grow : forall names d at_, grow d (walk_made d at_ names).
Proof.
  intros names d at_ l. destruct (made_changes names d at_ l) as [->|[N ->]]; [apply grow_refl|].
  rewrite N. split; discriminate.
Qed.
Lemma create_made : forall names d at_ d1 dir, walk_create d at_ names = Some (d1, dir) -> d1 = walk_made d at_ names.
Proof.
  induction names as [|n t IH]; intros d at_ d1 dir H; cbn [walk_create walk_made] in *; [congruence|].
  destruct (bytes_eqb n [] || bytes_eqb n dot); [eauto|]. destruct (bytes_eqb n dotdot); [eauto|]. cbv zeta in *.
  destruct (d (at_ ++ [n])) as [[|c]|]; eauto. discriminate.
Qed.
Lemma made_where : forall names d at_ l, Forall plain_name names ->
  walk_made d at_ names l = d l \/ (d l = None /\ walk_made d at_ names l = Some NDir /\ exists q r, names = q ++ r /\ q <> [] /\ l = at_ ++ q).
Proof.
  induction names as [|n t IH]; intros d at_ l F; cbn [walk_made]; [auto|].
  inversion F as [|? ? (N1 & N2 & N3 & N4) F']; subst.
  rewrite (proj2 (bytes_eqb_neq n [])), (proj2 (bytes_eqb_neq n dot)), (proj2 (bytes_eqb_neq n dotdot)) by auto. cbn [orb]. cbv zeta.
  assert (G : forall q r, t = q ++ r -> q <> [] -> l = (at_ ++ [n]) ++ q -> exists q' r', n :: t = q' ++ r' /\ q' <> [] /\ l = at_ ++ q').
  { intros q r -> _ ->. exists (n :: q), r. rewrite <- app_assoc. repeat split. discriminate. }
  destruct (d (at_ ++ [n])) as [[|c]|] eqn:E; auto.
  - destruct (IH d (at_ ++ [n]) l F') as [H|(A & B & q & r & C1 & C2 & C3)]; [auto|]. right. split; [auto|]. split; [auto|eauto].
  - destruct (IH (fs_set d (at_ ++ [n]) NDir) (at_ ++ [n]) l F') as [H|(A & B & q & r & C1 & C2 & C3)].
    + rewrite H. destruct (loc_eqb (at_ ++ [n]) l) eqn:Q; unfold fs_set; rewrite Q; [|auto]. apply loc_eqb_eq in Q. subst l. right.
      split; [auto|]. split; [auto|]. exists [n], t. repeat split. discriminate.
    + right. unfold fs_set in A. destruct (loc_eqb (at_ ++ [n]) l); [discriminate|]. split; [auto|]. split; [auto|eauto].
Qed.

(** ** Writing *)

Lemma wfs_grow : forall n cwd d w d', write_to_filesystem_n n cwd d w = Ret d' -> grow d d'.
Proof.
  intros n cwd d w d' H. unfold write_to_filesystem_n in H.
  destruct (is_special _ || existsb (N.eqb 0) _); [discriminate|].
  set (st := match join_slash (fw_path w) with [] => cwd | b :: _ => if (b =? 47)%N then [] else cwd end) in H.
  destruct (walk_create d st _) as [[d1 dir]|] eqn:W; [|discriminate].
  apply create_made in W. eapply grow_trans; [rewrite W; apply made_grow|]. rewrite <- W.
  destruct (d1 _) as [[|c]|] eqn:E; [discriminate| |]; injection H as <-; apply grow_write; auto.
Qed.
Lemma left_grow : forall cwd d w, grow d (left_by cwd d w).
Proof. intros cwd d w. unfold left_by. destruct (existsb _ _); [apply grow_refl|apply made_grow]. Qed.
Lemma left_all_grow : forall cwd ws d, grow d (left_by_all cwd d ws).
Proof.
  intros cwd. induction ws as [|w t IH]; intros d; cbn [left_by_all]; [apply grow_refl|].
  destruct (write_to_filesystem cwd d w) as [d'| |] eqn:E; try apply left_grow.
  eapply grow_trans; [eapply wfs_grow; exact E|apply IH].
Qed.
Lemma write_left_grow : forall p cwd d piece idx files plen, grow d (write_left p cwd d piece idx files plen).
Proof. intros. unfold write_left. destruct (get_file_writers p files piece idx plen); try apply grow_refl. apply left_all_grow. Qed.

Lemma left_all_ret : forall cwd ws d d', run_writers cwd d ws = Ret d' -> left_by_all cwd d ws = d'.
Proof.
  intros cwd. induction ws as [|w t IH]; intros d d' H; cbn [run_writers left_by_all] in *; [congruence|].
  apply obind_ret in H as (d1 & -> & H). auto.
Qed.
Lemma write_left_ret : forall p cwd d piece idx files plen d', write p cwd d piece idx files plen = Ret d' ->
  write_left p cwd d piece idx files plen = d'.
Proof. intros p cwd d piece idx files plen d' H. unfold write in H. apply obind_ret in H as (ws & E & H). unfold write_left. rewrite E. apply left_all_ret; auto. Qed.

(** Only paths of the torrent's files are written. *)
Lemma loop_paths : forall p piece files s acc ws (P : list bytes -> Prop), file_writers_loop p piece files s acc = Ret ws ->
  Forall (fun f => P (f_path f)) files -> Forall (fun w => P (fw_path w)) acc -> Forall (fun w => P (fw_path w)) ws.
Proof.
  intros p piece. induction files as [|f t IH]; intros s acc ws P H F A; cbn [file_writers_loop] in H; [injection H as <-; auto|].
  inversion F as [|? ? Pf Ft]; subst. cbv zeta in H. apply obind_ret in H as (s1 & _ & H).
  destruct (is_piece_in_file s1); [|eauto].
  apply obind_ret in H as (s2 & _ & H). apply obind_ret in H as (a & _ & H). apply obind_ret in H as (b & _ & H).
  apply obind_ret in H as (pa & _ & H). apply obind_ret in H as (pb & _ & H). apply obind_ret in H as (data & _ & H).
  apply obind_ret in H as (more & _ & H).
  assert (A' : Forall (fun w => P (fw_path w)) (acc ++ [{| fw_path := get_path f; fw_start := a; fw_end := b; fw_piece := data |}])).
  { apply Forall_app. split; [auto|]. constructor; [exact Pf|constructor]. }
  destruct more; [eauto|]. injection H as <-. auto.
Qed.
Lemma writers_paths : forall p files piece idx plen ws (P : list bytes -> Prop), get_file_writers p files piece idx plen = Ret ws ->
  Forall (fun f => P (f_path f)) files -> Forall (fun w => P (fw_path w)) ws.
Proof.
  intros p files piece idx plen ws P H F. unfold get_file_writers in H. apply obind_ret in H as (s & _ & H).
  eapply loop_paths; eauto.
Qed.

(** ** Writing files with plain paths *)

(** The change at [l] is a file written at [cwd ++ path] or a directory made for it. *)
Definition file_change (cwd : loc) (path : list bytes) (d d' : fs) (l : loc) : Prop :=
  exists q r, path = q ++ r /\ l = cwd ++ q /\
    ((r = [] /\ exists c, d' l = Some (NFile c)) \/ (r <> [] /\ q <> [] /\ d l = None /\ d' l = Some NDir)).

Lemma drop_plain : forall l, Forall plain_name l -> drop_stays l = l.
Proof.
  intros [|n l] F; [reflexivity|]. inversion F as [|? ? (N1 & N2 & N3 & N4) F']; subst. cbn [drop_stays].
  rewrite (proj2 (bytes_eqb_neq n [])), (proj2 (bytes_eqb_neq n dot)) by auto. reflexivity.
Qed.
Lemma wfs_change : forall n cwd d w d' l, sane_path (fw_path w) -> write_to_filesystem_n n cwd d w = Ret d' ->
  d' l = d l \/ file_change cwd (fw_path w) d d' l.
Proof.
  intros n cwd d w d' l S H. rewrite wfs_unfold in H by auto. destruct S as [NE F]. set (path := fw_path w) in *.
  assert (FP : Forall plain_name (removelast path)).
  { apply Forall_forall. intros m I. apply sane_plain. rewrite Forall_forall in F. apply F. rewrite (path_split path NE). apply in_or_app. auto. }
  destruct (walk_create d cwd (removelast path)) as [[d1 dir]|] eqn:W; [|discriminate].
  pose proof (walk_spec _ _ _ _ _ FP W) as (Ed & _ & _). apply create_made in W.
  assert (T : dir ++ [last path []] = cwd ++ path) by (rewrite Ed, <- app_assoc, <- (path_split path NE); auto).
  rewrite T in H.
  assert (K : exists c, d' = fs_set d1 (cwd ++ path) (NFile c)).
  { destruct (d1 (cwd ++ path)) as [[|c]|]; [discriminate| |]; injection H as <-; eauto. }
  destruct K as [c ->]. destruct (loc_eqb (cwd ++ path) l) eqn:Q.
  - apply loc_eqb_eq in Q. subst l. right. exists path, []. rewrite app_nil_r. split; [auto|]. split; [auto|]. left. split; [auto|].
    exists c. apply fs_set_same.
  - unfold file_change, fs_set. rewrite Q. subst d1. destruct (made_where (removelast path) d cwd l FP) as [E|(A & B & q & r & C1 & C2 & C3)]; [auto|].
    right. exists q, (r ++ [last path []]). split; [|split; [auto|]].
    + rewrite app_assoc, <- C1. apply path_split, NE.
    + right. split; [intros X; apply app_eq_nil in X as [_ X]; discriminate|auto].
Qed.
Lemma left_change : forall cwd d w l, sane_path (fw_path w) -> left_by cwd d w l = d l \/ file_change cwd (fw_path w) d (left_by cwd d w) l.
Proof.
  intros cwd d w l S. unfold left_by. destruct (sane_text _ S) as (E1 & _ & _ & E4). rewrite E1.
  destruct S as [NE F]. set (path := fw_path w) in *.
  assert (FP' : Forall plain_name path) by (eapply Forall_impl; [apply sane_plain|auto]).
  assert (FP : Forall plain_name (removelast path)).
  { apply Forall_forall. intros m I. rewrite Forall_forall in FP'. apply FP'. rewrite (path_split path NE). apply in_or_app. auto. }
  rewrite drop_plain by (apply Forall_rev; auto). rewrite rev_involutive.
  destruct (existsb (existsb (N.eqb 0)) (removelast path)); [auto|].
  replace (match join_slash path with [] => cwd | b :: _ => if (b =? 47)%N then [] else cwd end) with cwd
    by (destruct (join_slash path); [auto|rewrite E4; auto]).
  destruct (made_where (removelast path) d cwd l FP) as [E|(A & B & q & r & C1 & C2 & C3)]; [auto|].
  right. exists q, (r ++ [last path []]). split; [|split; [auto|]].
  - rewrite app_assoc, <- C1. apply path_split, NE.
  - right. split; [intros X; apply app_eq_nil in X as [_ X]; discriminate|auto].
Qed.

(** Changes add up. *)
Definition changes (cwd : loc) (P : list bytes -> Prop) (d d' : fs) : Prop :=
  forall l, d' l = d l \/ exists path, P path /\ file_change cwd path d d' l.
Lemma changes_trans : forall cwd P a b c, grow a b -> grow b c -> changes cwd P a b -> changes cwd P b c -> changes cwd P a c.
Proof.
  intros cwd P a b c G1 G2 H1 H2 l. destruct (H2 l) as [E|(path & Hp & q & r & E1 & E2 & K)].
  - rewrite E. destruct (H1 l) as [E'|(path & Hp & q & r & E1 & E2 & K)]; [auto|]. right. exists path. split; [auto|].
    exists q, r. split; [auto|]. split; [auto|]. rewrite E. auto.
  - right. exists path. split; [auto|]. exists q, r. split; [auto|]. split; [auto|]. destruct K as [K|(K1 & K2 & K3 & K4)]; [auto|].
    right. split; [auto|]. split; [auto|]. split; [|auto].
    destruct (G1 l) as [D F]. destruct (a l) as [[|x]|]; [now specialize (D eq_refl); congruence| |auto].
    destruct (F x eq_refl) as (y & Y & _). congruence.
Qed.
Lemma changes_refl : forall cwd P d, changes cwd P d d.
Proof. intros cwd P d l. auto. Qed.

Lemma left_all_changes : forall cwd ws d, Forall (fun w => sane_path (fw_path w)) ws ->
  changes cwd (fun path => exists w, In w ws /\ fw_path w = path) d (left_by_all cwd d ws).
Proof.
  intros cwd. induction ws as [|w t IH]; intros d F; cbn [left_by_all]; [apply changes_refl|].
  inversion F as [|? ? Fw Ft]; subst. destruct (write_to_filesystem cwd d w) as [d'| |] eqn:E.
  - eapply changes_trans; [eapply wfs_grow; exact E|apply left_all_grow| |].
    + intros l. destruct (wfs_change _ _ _ _ _ l Fw E) as [H|H]; [auto|]. right. exists (fw_path w). split; [|auto]. exists w. cbn; auto.
    + intros l. destruct (IH d' Ft l) as [H|(path & (w' & I & Ew) & H)]; [auto|]. right. exists path. split; [|auto]. exists w'. cbn; auto.
  - intros l. destruct (left_change cwd d w l Fw) as [H|H]; [auto|]. right. exists (fw_path w). split; [|auto]. exists w. cbn; auto.
  - intros l. destruct (left_change cwd d w l Fw) as [H|H]; [auto|]. right. exists (fw_path w). split; [|auto]. exists w. cbn; auto.
Qed.
Lemma write_left_changes : forall p cwd d piece idx files plen, Forall (fun f => sane_path (f_path f)) files ->
  changes cwd (fun path => exists f, In f files /\ f_path f = path) d (write_left p cwd d piece idx files plen).
Proof.
  intros p cwd d piece idx files plen F. unfold write_left.
  destruct (get_file_writers p files piece idx plen) as [ws| |] eqn:E; try apply changes_refl.
  assert (S : Forall (fun w => sane_path (fw_path w)) ws) by (eapply (writers_paths p files piece idx plen ws sane_path); eauto).
  assert (Q : Forall (fun w => exists f, In f files /\ f_path f = fw_path w) ws).
  { eapply (writers_paths p files piece idx plen ws (fun path => exists f, In f files /\ f_path f = path)); eauto. apply Forall_forall. eauto. }
  intros l. destruct (left_all_changes cwd ws d S l) as [H|(path & (w & I & Ew) & H)]; [auto|]. right. exists path. split; [|auto].
  rewrite Forall_forall in Q. rewrite <- Ew. auto.
Qed.

(** ** Getting a description *)

Definition description_change (cwd : loc) (h : bytes) (d d' : fs) : Prop := forall l, d' l = d l \/
  (l = cwd ++ [s2b "downloads"] /\ d l = None /\ d' l = Some NDir) \/
  (l = in_downloads cwd (encode_binary h) /\ (exists c, d' l = Some (NFile c)) /\ (d l = None \/ not_text d l)).

Lemma downloads_made_change : forall cwd d l, downloads_made cwd d l = d l \/
  (l = cwd ++ [s2b "downloads"] /\ d l = None /\ downloads_made cwd d l = Some NDir).
Proof.
  intros cwd d l. unfold downloads_made. destruct (walk_create d cwd [dot; downloads]) as [[d1 at_]|] eqn:W; [|auto].
  destruct (walk_downloads _ _ _ _ W) as (_ & D1 & Do & Ds). change (s2b "downloads") with downloads.
  destruct (loc_eqb (cwd ++ [downloads]) l) eqn:Q.
  - apply loc_eqb_eq in Q. subst l. destruct (d (cwd ++ [downloads])) as [[|c]|] eqn:E; [rewrite (Ds eq_refl); auto| |auto].
    apply create_made in W. destruct (made_changes [dot; downloads] d cwd (cwd ++ [downloads])) as [H|[H _]]; congruence.
  - left. apply Do. intros ->. rewrite (proj2 (loc_eqb_eq _ _)) in Q by auto. discriminate.
Qed.

Lemma collect_change : forall accept fuel cwd d net pid h ep r d', collect_info accept fuel cwd d net pid h ep = Ret (r, d') ->
  description_change cwd h d d'.
Proof.
  intros accept fuel cwd d net pid h ep r d' H. unfold collect_info in H.
  pose proof (downloads_made_change cwd d) as M. unfold downloads_made in M.
  destruct (walk_create d cwd [dot; downloads]) as [[d1 at_]|] eqn:W; [|discriminate].
  assert (M' : description_change cwd h d d1) by (intros l; destruct (M l) as [?|?]; auto).
  apply obind_ret in H as (c & F & H). destruct c as [i|e]; [injection H as <- <-; auto|].
  apply obind_ret in H as (g & G & H). destruct g as [i|e']; [|injection H as <- <-; auto].
  apply obind_ret in H as ([res d2] & S & H). injection H as <- <-. unfold save in S. unfold from_file in F.
  destruct (walk_downloads _ _ _ _ W) as (_ & _ & Do & _).
  assert (EL : d1 (cache_loc cwd h) = d (cache_loc cwd h)).
  { apply Do. unfold cache_loc. intros E. apply app_inv_head in E. discriminate. }
  assert (K : d2 = fs_set d1 (cache_loc cwd h) (NFile (firstn accept (js_info i))) /\ (d (cache_loc cwd h) = None \/ not_text d (cache_loc cwd h))).
  { rewrite EL in S, F. destruct (d (cache_loc cwd h)) as [[|c]|] eqn:E; [discriminate| |]; injection S as _ <-; (split; [auto|]); [|auto].
    right. exists c. split; [auto|]. destruct (utf8_valid c) eqn:U; [destruct (info_from_json c); discriminate|].
    intros X. apply c64_text in X. congruence. }
  destruct K as [-> K]. intros l. unfold fs_set. destruct (loc_eqb (cache_loc cwd h) l) eqn:Q; [|apply M'].
  apply loc_eqb_eq in Q. subst l. right. right. split; [reflexivity|]. split; [eauto|auto].
Qed.

Lemma description_kept : forall cwd h d d', description_change cwd h d d' ->
  kept_except (fun l => l = in_downloads cwd (encode_binary h) /\ not_text d l) d d'.
Proof.
  intros cwd h d d' H l. destruct (H l) as [->|[(-> & N & ->)|(-> & (c & E) & [N|N])]].
  - split; [auto|]. intros c E. exists c. split; [auto|right; lia].
  - rewrite N. split; discriminate.
  - rewrite N. split; discriminate.
  - destruct N as (c0 & E0 & N). rewrite E0. split; [discriminate|]. intros c1 E1. exists c. split; [auto|]. left. split; [auto|]. exists c0. auto.
Qed.

(** ** One step *)

Definition written_change (p : profile) (cwd : loc) (s : process) (t : nat) (d' : fs) : Prop :=
  exists x i files r, nth_error (pr_torrents s) t = Some x /\ ta_info (sy_actor x) = Some i /\ consists_of i files /\
    d' = write_left p cwd (pr_disk s) (rd_piece r) (rd_idx r) files (rd_piece_length r).

Lemma writer_suffix : forall sha1 p cwd d ops s, started sha1 p cwd d ops s ->
  forall t x, nth_error (pr_torrents s) t = Some x -> exists done, to_writer (sy_trace x) = done ++ sy_writer x.
Proof.
  intros sha1 p cwd d. refine (started_ind sha1 p cwd d _ _ _); [intros [|t] x H; discriminate|].
  intros ops s o R OK IH t x' H.
  apply torrent_cases in H; [|auto]. destruct H as [[H _]|[(x & D & o' & H & _ & -> & _)|(raw & full & h & _ & _ & _ & ->)]].
  - eauto.
  - destruct (IH _ _ H) as (done & E).
    destruct o' as [ep|k found shuffle| |k net pid fuel|].
    1-4: match goal with |- exists _, to_writer (sy_trace (sys_step _ _ _ _ ?o)) = _ =>
           destruct (suffix_step sha1 p cwd (set_disk D x) o ltac:(discriminate) (ex_intro _ done E)) as (_ & _ & (dn & _ & Q) & _) end; eauto.
    cbn [sys_step set_disk sy_writer_dead sy_writer sy_disk].
    change (sy_trace (set_disk D x)) with (sy_trace x) in *. change (sy_writer (set_disk D x)) with (sy_writer x) in *.
    destruct (sy_writer_dead x); [exists done; exact E|]. destruct (sy_writer x) as [|r rest] eqn:W; [exists done; cbn [set_disk sy_trace sy_writer]; rewrite ?W; exact E|].
    destruct (write p cwd D (rd_piece r) (rd_idx r) (rd_files r) (rd_piece_length r)); cbn [sy_trace sy_writer];
      [exists (done ++ [r])|exists (done ++ [r])|exists done]; rewrite <- ?app_assoc; cbn [app set_disk sy_writer sy_trace]; rewrite ?W; exact E.
  - exists []. reflexivity.
Qed.

Lemma step_disk : forall sha1 p cwd d ops s o, started sha1 p cwd d ops s ->
  (forall l, pr_disk (pr_step sha1 p cwd s o) l = pr_disk s l) \/
  (exists t, o = PWrite t /\ written_change p cwd s t (pr_disk (pr_step sha1 p cwd s o))) \/
  (exists h, In h (accepted p ops) /\ description_change cwd h (pr_disk s) (pr_disk (pr_step sha1 p cwd s o))).
Proof.
  intros sha1 p cwd d ops s o R.
  assert (Same : forall d', d' = pr_disk s -> forall l, d' l = pr_disk s l) by (intros; congruence).
  destruct o as [raw full|full|k|k j e|k j connects|t k accept fuel net pid shuffle|t|t i net pid fuel|t]; cbn [pr_step].
  - left. apply Same. destruct (add_cases p full raw s) as [(h & _ & _ & E)|(_ & _ & E)]; rewrite E; auto.
  - left. apply Same. destruct (pr_interface s); auto.
  - left. apply Same. auto.
  - left. apply Same. auto.
  - left. apply Same. destruct (nth_error (pr_trackers s) k) as [x|]; [|auto].
    destruct (nth_error (tk_jobs x) j) as [[r|r [|e rest]]|]; auto.
    destruct (is_reachable connects (endpoint e)); [rewrite pr_disk_step by discriminate|]; auto.
  - destruct (nth_error (pr_torrents s) t) as [x|] eqn:EX; [|left; apply Same; auto].
    destruct (nth_error (sy_mail x) k) as [[]|]; try (left; apply Same; apply pr_disk_step; discriminate).
    destruct (ta_info (sy_actor x)); try (left; apply Same; apply pr_disk_step; discriminate).
    destruct (sy_dead x); try (left; apply Same; apply pr_disk_step; discriminate).
    right. right. exists (ta_info_hash (sy_actor x)). split; [eapply nth_error_In, torrent_hash; eauto|].
    assert (M : description_change cwd (ta_info_hash (sy_actor x)) (pr_disk s) (downloads_made cwd (pr_disk s))).
    { intros l. destruct (downloads_made_change cwd (pr_disk s) l) as [?|?]; auto. }
    destruct (collect_info accept fuel cwd (pr_disk s) net pid (ta_info_hash (sy_actor x)) ep) as [[found d']| |] eqn:C.
    + rewrite pr_disk_step by discriminate. cbn [pr_disk with_disk]. eapply collect_change; eauto.
    + rewrite pr_disk_step by discriminate. exact M.
    + exact M.
  - left. apply Same. apply pr_disk_step. discriminate.
  - left. apply Same. apply pr_disk_step. discriminate.
  - unfold torrent_step. destruct (nth_error (pr_torrents s) t) as [x|] eqn:EX; [|left; apply Same; auto].
    cbn [sys_step set_disk sy_writer_dead sy_writer sy_disk pr_disk].
    destruct (sy_writer_dead x); [left; apply Same; auto|]. destruct (sy_writer x) as [|r rest] eqn:W; [left; apply Same; auto|].
    pose proof (readies_good _ _ _ _ _ _ R t x EX) as G. destruct (writer_suffix _ _ _ _ _ _ R t x EX) as (done & ET).
    rewrite ET in G. rewrite W in G.
    destruct (ta_info (sy_actor x)) as [i|] eqn:I; [|apply app_eq_nil in G as [_ G]; discriminate].
    destruct G as (n & files & _ & GF & G). apply Forall_app in G as [_ G]. inversion G as [|? ? (F1 & _) _]; subst.
    apply c11_files in GF.
    destruct (write p cwd (pr_disk s) (rd_piece r) (rd_idx r) (rd_files r) (rd_piece_length r)) as [d'| |] eqn:WR; cbn [sy_disk].
    + right. left. exists t. split; [auto|]. exists x, i, (rd_files r), r. split; [auto|]. split; [auto|]. split; [auto|].
      symmetry. apply write_left_ret. auto.
    + right. left. exists t. split; [auto|]. exists x, i, (rd_files r), r. auto.
    + left. apply Same. auto.
Qed.

(** ** Executions *)

Lemma c65_step : forall sha1 p cwd d ops s o, started sha1 p cwd d ops s -> pop_ok o ->
  kept_except (fun l => description_of encode_binary cwd (accepted p ops) l /\ not_text (pr_disk s) l)
    (pr_disk s) (pr_disk (pr_step sha1 p cwd s o)).
Proof.
  intros sha1 p cwd d ops s o R _. destruct (step_disk sha1 p cwd d ops s o R) as [H|[(t & _ & x & i & files & r & _ & _ & _ & ->)|(h & I & H)]].
  - eapply kept_mono; [|apply grow_same, H]. intros l [].
  - eapply kept_mono; [|apply write_left_grow]. intros l [].
  - eapply kept_mono; [|apply description_kept, H]. intros l [-> N]. split; [|auto]. exists h. auto.
Qed.

Lemma c65_kept : forall sha1 p cwd d ops s, started sha1 p cwd d ops s ->
  kept_except (description_of encode_binary cwd (accepted p ops)) d (pr_disk s).
Proof.
  intros sha1 p cwd d. refine (started_ind sha1 p cwd d _ _ _).
  - eapply kept_mono; [|apply grow_refl]. intros l [].
  - intros ops s o R OK IH. rewrite accepted_app. eapply kept_trans.
    + eapply kept_mono; [|exact IH]. intros l (h & I & ->). exists h. split; [apply in_or_app; auto|auto].
    + eapply kept_mono; [|eapply c65_step; eauto]. intros l [(h & I & ->) _]. exists h. split; [apply in_or_app; auto|auto].
Qed.

Lemma some_file_step : forall sha1 p cwd s o path, some_file s path -> some_file (pr_step sha1 p cwd s o) path.
Proof.
  intros sha1 p cwd s o path (x & i & files & f & I & E & C & If & ->). apply in_nth in I as (t & N).
  destruct (torrent_forward sha1 p cwd s o t x N) as (x' & N' & G & _). exists x', i, files, f.
  split; [eapply nth_error_In; eauto|auto].
Qed.

Lemma c65_confined : forall sha1 p cwd d ops s, started sha1 p cwd d ops s -> plain_paths s ->
  forall l, pr_disk s l = d l \/ for_a_file cwd s d (pr_disk s) l \/ for_a_description encode_binary cwd (accepted p ops) d (pr_disk s) l.
Proof.
  intros sha1 p cwd d. refine (started_ind sha1 p cwd d _ _ _); [auto|].
  intros ops s o R OK IH PL l.
  assert (PS : plain_paths s) by (intros path H; apply PL, some_file_step, H). specialize (IH PS).
  pose proof (c65_kept _ _ _ _ _ _ R) as K.
  assert (NN : forall l0, pr_disk s l0 = None -> d l0 = None).
  { intros l0 E. destruct (K l0) as [A B]. destruct (d l0) as [[|c]|]; [rewrite (A eq_refl) in E; discriminate| |auto].
    destruct (B c eq_refl) as (c' & E' & _). congruence. }
  set (s' := pr_step sha1 p cwd s o) in *.
  assert (OLD : pr_disk s' l = pr_disk s l -> pr_disk s' l = d l \/ for_a_file cwd s' d (pr_disk s') l \/
    for_a_description encode_binary cwd (accepted p (ops ++ [o])) d (pr_disk s') l).
  { intros E. destruct (IH l) as [H|[(path & q & r & A1 & A2 & A3 & A4)|[((h & I & El) & A)|(A1 & A2 & A3)]]].
    - left. congruence.
    - right. left. exists path, q, r. split; [apply some_file_step, A1|]. split; [auto|]. split; [auto|]. rewrite E. auto.
    - right. right. left. split; [|rewrite E; auto]. exists h. split; [|auto]. rewrite accepted_app. apply in_or_app. auto.
    - right. right. right. rewrite E. auto. }
  destruct (step_disk sha1 p cwd d ops s o R) as [H|[(t & _ & x & i & files & r & X1 & X2 & X3 & X4)|(h & I & H)]].
  - apply OLD, H.
  - fold s' in X4.
    assert (SF : forall f, In f files -> some_file s (f_path f)).
    { intros f I. exists x, i, files, f. split; [eapply nth_error_In; eauto|auto]. }
    assert (F : Forall (fun f => sane_path (f_path f)) files) by (apply Forall_forall; intros f I; apply PS, SF, I).
    destruct (write_left_changes p cwd (pr_disk s) (rd_piece r) (rd_idx r) files (rd_piece_length r) F l) as [E|(path & (f & If & Ef) & q & r0 & B1 & B2 & B3)];
      rewrite <- X4 in *; [auto|].
    right. left. exists path, q, r0. split; [subst path; apply some_file_step, SF, If|]. split; [auto|]. split; [auto|].
    destruct B3 as [B3|(B3 & B4 & B5 & B6)]; [auto|]. right. repeat split; auto.
  - destruct (H l) as [E|[(-> & N & E)|(-> & E & _)]]; fold s' in E.
    + auto.
    + right. right. right. auto.
    + right. right. left. split; [|auto]. exists h. split; [|auto]. rewrite accepted_app. apply in_or_app. auto.
Qed.

(** ** A write that aborts *)

Lemma dead_stays : forall sha1 p cwd x o, sy_writer_dead x = true -> sy_writer_dead (sys_step sha1 p cwd x o) = true.
Proof.
  intros sha1 p cwd x o H. destruct o as [ep|k found shuffle| |k net pid fuel|]; cbn [sys_step]; auto.
  - destruct (sy_dead x); [auto|]. destruct (nth_error (sy_mail x) k); [|auto]. destruct (handle p found shuffle (sy_actor x) t) as [[a es]| |]; auto.
  - destruct (sy_queue x); [auto|]. destruct (List.length (sy_working x) <? sy_workers x)%nat; auto.
  - destruct (nth_error (sy_working x) k); [|auto]. destruct (download sha1 p fuel net pid (rq_endpoint p0) (rq_info p0) (rq_idx p0)) as [[|]| |]; auto.
  - rewrite H. auto.
Qed.
Lemma dead_step : forall sha1 p cwd s o t x, pop_ok o -> nth_error (pr_torrents s) t = Some x -> sy_writer_dead x = true ->
  exists x', nth_error (pr_torrents (pr_step sha1 p cwd s o)) t = Some x' /\ sy_writer_dead x' = true.
Proof.
  intros sha1 p cwd s o t x OK N H. destruct (torrent_forward sha1 p cwd s o t x N) as (x' & N' & _). exists x'. split; [auto|].
  apply torrent_cases in N'; [|auto]. destruct N' as [[E _]|[(y & D & o' & E & _ & -> & _)|(raw & full & h & _ & _ & E & _)]].
  - congruence.
  - apply dead_stays. cbn [set_disk sy_writer_dead]. congruence.
  - apply nth_error_Some in N as L || (assert (L : (t < List.length (pr_torrents s))%nat) by (apply nth_error_Some; congruence)). lia.
Qed.
Lemma dead_run : forall sha1 p cwd ops s t x, Forall pop_ok ops -> nth_error (pr_torrents s) t = Some x -> sy_writer_dead x = true ->
  exists x', nth_error (pr_torrents (pr_run sha1 p cwd s ops)) t = Some x' /\ sy_writer_dead x' = true.
Proof.
  intros sha1 p cwd. induction ops as [|o ops IH]; intros s t x F N H; [eauto|]. inversion F; subst. cbn [pr_run fold_left].
  destruct (dead_step sha1 p cwd s o t x) as (x' & N' & H'); auto. eapply IH; eauto.
Qed.
Lemma c65_abort : forall sha1 p cwd s t x r rest ops, Forall pop_ok ops ->
  nth_error (pr_torrents s) t = Some x -> sy_writer x = r :: rest -> sy_writer_dead x = false ->
  write p cwd (pr_disk s) (rd_piece r) (rd_idx r) (rd_files r) (rd_piece_length r) = Panic ->
  let s' := pr_run sha1 p cwd s (PWrite t :: ops) in
  pr_disk (pr_step sha1 p cwd s' (PWrite t)) = pr_disk s'.
Proof.
  intros sha1 p cwd s t x r rest ops F N W D P. cbn zeta. cbn [pr_run fold_left].
  set (s1 := pr_step sha1 p cwd s (PWrite t)).
  assert (Q : exists x1, nth_error (pr_torrents s1) t = Some x1 /\ sy_writer_dead x1 = true).
  { unfold s1. cbn [pr_step]. rewrite torrent_nth, N, Nat.eqb_refl. cbn [option_map]. eexists. split; [reflexivity|].
    cbn [sys_step set_disk sy_writer_dead sy_writer sy_disk]. rewrite D, W, P. reflexivity. }
  destruct Q as (x1 & N1 & D1). destruct (dead_run sha1 p cwd ops s1 t x1 F N1 D1) as (x2 & N2 & D2).
  fold (pr_run sha1 p cwd s1 ops). cbn [pr_step]. unfold torrent_step. rewrite N2. cbn [sys_step set_disk sy_writer_dead sy_disk pr_disk]. rewrite D2. reflexivity.
Qed.

(** *** When a write aborts *)

Lemma wfs_outcome : forall n cwd d w, write_to_filesystem_n n cwd d w <> OutOfFuel.
Proof.
  intros n cwd d w. unfold write_to_filesystem_n. destruct (is_special _ || existsb (N.eqb 0) _); [discriminate|].
  set (st := match join_slash (fw_path w) with [] => cwd | b :: _ => if (b =? 47)%N then [] else cwd end).
  destruct (walk_create d st _) as [[d1 dir]|]; [|discriminate]. destruct (d1 _) as [[|c]|]; discriminate.
Qed.
Lemma way_clear : forall cwd d path,
  (exists q r c, path = q ++ r /\ q <> [] /\ r <> [] /\ d (cwd ++ q) = Some (NFile c)) \/ dirs_ok cwd d path.
Proof.
  intros cwd d path.
  set (bad := fun k => match d (cwd ++ firstn k path) with Some (NFile _) => true | _ => false end).
  destruct (existsb bad (seq 1 (List.length path - 1))) eqn:X; [left|right].
  - apply existsb_exists in X as (k & I & X). apply in_seq in I. unfold bad in X.
    destruct (d (cwd ++ firstn k path)) as [[|b]|] eqn:Y; try discriminate.
    exists (firstn k path), (skipn k path), b. split; [symmetry; apply firstn_skipn|]. split; [|split; [|auto]].
    + intros Z. apply (f_equal (@List.length _)) in Z. rewrite firstn_length in Z. cbn in Z. lia.
    + intros Z. apply (f_equal (@List.length _)) in Z. rewrite skipn_length in Z. cbn in Z. lia.
  - intros q r Eq Nq Nr. destruct (d (cwd ++ q)) as [[|b]|] eqn:Y; auto. exfalso.
    enough (existsb bad (seq 1 (List.length path - 1)) = true) by congruence.
    apply existsb_exists. exists (List.length q). unfold bad. rewrite Eq.
    rewrite firstn_app, Nat.sub_diag, firstn_all, firstn_O, app_nil_r, Y. split; [|auto].
    apply in_seq. rewrite app_length. destruct q; [congruence|]. destruct r; [congruence|]. cbn [List.length]. lia.
Qed.
Lemma wfs_blocked : forall n cwd d w, sane_path (fw_path w) -> (write_to_filesystem_n n cwd d w = Panic <-> blocked cwd d (fw_path w)).
Proof.
  intros n cwd d w S. split.
  - intros H.
    destruct (way_clear cwd d (fw_path w)) as [X|X]; [left; auto|].
    destruct (d (cwd ++ fw_path w)) as [[|c]|] eqn:E; [right; auto| |];
      exfalso; destruct (wfs_succeeds n cwd d w S X) as (d2 & Z); congruence.
  - intros B. destruct (write_to_filesystem_n n cwd d w) as [d2| |] eqn:E; [|auto|now apply wfs_outcome in E].
    exfalso. destruct (wfs_spec _ _ _ _ _ S E) as (D & ND & _). destruct B as [(q & r & c & Eq & Nq & Nr & Ec)|B]; [|congruence].
    destruct (D q r Eq Nq Nr); congruence.
Qed.

Definition compatible (a b : list bytes) : Prop := a = b \/ (~ is_prefix a b /\ ~ is_prefix b a).

Lemma blocked_stable : forall n cwd d w d2 path, sane_path (fw_path w) -> write_to_filesystem_n n cwd d w = Ret d2 ->
  compatible (fw_path w) path -> (blocked cwd d2 path <-> blocked cwd d path).
Proof.
  intros n cwd d w d2 path S H C. pose proof (wfs_grow _ _ _ _ _ H) as G. split.
  - intros [(q & r & c & Eq & Nq & Nr & Ec)|B].
    + left. destruct (wfs_change _ _ _ _ _ (cwd ++ q) S H) as [E|(q' & r' & E1 & E2 & K)]; [exists q, r, c; repeat split; congruence|].
      exfalso. apply app_inv_head in E2. subst q'. destruct K as [[-> _]|(_ & _ & _ & K)]; [|congruence].
      rewrite app_nil_r in E1. subst path. destruct C as [C|[C _]].
      * rewrite E1 in C. apply (f_equal (@List.length _)) in C. rewrite app_length in C. destruct r; [congruence|]. cbn in C. lia.
      * apply C. exists r. congruence.
    + right. destruct (wfs_change _ _ _ _ _ (cwd ++ path) S H) as [E|(q' & r' & E1 & E2 & K)]; [congruence|].
      exfalso. apply app_inv_head in E2. subst q'. destruct K as [[_ [c K]]|(K & _)]; [congruence|].
      destruct C as [C|[_ C]].
      * rewrite E1 in C. apply (f_equal (@List.length _)) in C. rewrite app_length in C. destruct r'; [congruence|]. cbn in C. lia.
      * apply C. exists r'. auto.
  - intros [(q & r & c & Eq & Nq & Nr & Ec)|B].
    + left. destruct (G (cwd ++ q)) as [_ F]. apply F in Ec as (c' & Ec & _). exists q, r, c'. auto.
    + right. destruct (G (cwd ++ path)) as [D _]. auto.
Qed.

Lemma run_blocked : forall cwd ws d, Forall (fun w => sane_path (fw_path w)) ws ->
  (forall w w', In w ws -> In w' ws -> compatible (fw_path w) (fw_path w')) ->
  run_writers cwd d ws <> OutOfFuel /\ (run_writers cwd d ws = Panic <-> exists w, In w ws /\ blocked cwd d (fw_path w)).
Proof.
  intros cwd. induction ws as [|w t IH]; intros d F C; cbn [run_writers].
  - split; [discriminate|]. split; [discriminate|intros (w & [] & _)].
  - inversion F as [|? ? Fw Ft]; subst. destruct (write_to_filesystem cwd d w) as [d2| |] eqn:E; cbn [obind].
    + destruct (IH d2 Ft) as [I1 I2]; [intros; apply C; cbn; auto|]. split; [auto|]. rewrite I2. split.
      * intros (w' & I & B). exists w'. split; [cbn; auto|]. eapply (proj1 (blocked_stable _ _ _ _ _ _ Fw E (C w w' (or_introl eq_refl) (or_intror I)))), B.
      * intros (w' & [<-|I] & B); [apply (wfs_blocked (List.length (fw_piece w)) _ _ _ Fw) in B; unfold write_to_filesystem in E; rewrite E in B; discriminate|].
        exists w'. split; [auto|]. eapply (proj2 (blocked_stable _ _ _ _ _ _ Fw E (C w w' (or_introl eq_refl) (or_intror I)))), B.
    + split; [discriminate|]. split; [|auto]. intros _. exists w. split; [cbn; auto|]. eapply wfs_blocked; eauto.
    + now apply wfs_outcome in E.
Qed.

Lemma c65_write_aborts : forall p cwd d piece idx files plen, good_files files -> piece <> [] ->
  (total_length files < 2 ^ 64)%N -> (idx * plen + lenN piece < 2 ^ 64)%N ->
  write p cwd d piece idx files plen <> OutOfFuel /\
  (write p cwd d piece idx files plen = Panic <->
   exists k f, nth_error files k = Some f /\ blocked cwd d (f_path f) /\
     (file_start files k < idx * plen + lenN piece)%N /\ (idx * plen < file_start files k + f_length f)%N).
Proof.
  intros p cwd d piece idx files plen [GS GP] NE T O. unfold write.
  destruct (c24_split p files piece idx plen NE T O) as (ws & E & M & _). rewrite E. cbn [obind].
  assert (V : forall w, In w ws -> exists k f, nth_error files k = Some f /\ fw_path w = f_path f /\
     (idx * plen < file_start files k + f_length f /\ file_start files k < idx * plen + lenN piece)%N).
  { intros w I. apply (in_map view) in I. rewrite M in I. apply split_meets_conv in I as (k & f & A & B & C). exists k, f. auto. }
  destruct (run_blocked cwd ws d) as [R1 R2].
  - apply Forall_forall. intros w I. destruct (V w I) as (k & f & A & -> & _). rewrite Forall_forall in GS. apply GS. eapply nth_error_In; eauto.
  - intros w w' I I'. destruct (V w I) as (k & f & A & -> & _), (V w' I') as (k' & f' & A' & -> & _).
    destruct (Nat.eq_dec k k') as [<-|N]; [left; congruence|]. right. split; [eapply (GP k k'); eauto|eapply (GP k' k); eauto].
  - split; [auto|]. rewrite R2. split.
    + intros (w & I & B). destruct (V w I) as (k & f & A & A1 & A2 & A3). exists k, f. rewrite A1 in B. auto.
    + intros (k & f & A & B & C1 & C2). destruct (split_meets files 0 (idx * plen) piece k f A) as (pos & data & I); [lia|].
      rewrite <- M in I. apply in_map_iff in I as (w & Ew & I). exists w. split; [auto|]. injection Ew as -> _ _. auto.
Qed.

(** A file that cannot have its name. *)
Lemma c65_unusable : forall p cwd d piece idx plen dirs n len, In n [[]; s2b "."; s2b ".."] -> Forall (fun m => ~ In 47%N m) dirs ->
  piece <> [] -> (len < 2 ^ 64)%N -> (idx * plen < len)%N -> (idx * plen + lenN piece < 2 ^ 64)%N ->
  let files := [{| f_path := dirs ++ [n]; f_length := len |}] in
  write p cwd d piece idx files plen = Panic /\
  (forall l, write_left p cwd d piece idx files plen l = d l \/ (d l = None /\ write_left p cwd d piece idx files plen l = Some NDir)).
Proof.
  intros p cwd d piece idx plen dirs n len I D NE L L2 O files.
  destruct (c24_split p files piece idx plen NE) as (ws & E & M & _); [cbn [files total_length f_length]; lia|auto|].
  cbn [files split_piece] in M. fold (lenN piece) in M. rewrite N.add_0_l in M.
  cbn [f_length f_path] in M.
  assert (LP : (0 < lenN piece)%N) by (destruct piece; [congruence|unfold lenN; cbn [List.length]; lia]).
  rewrite (proj2 (N.ltb_lt (idx * plen) len)) in M by auto. rewrite (proj2 (N.ltb_lt 0 (idx * plen + lenN piece))) in M by lia.
  cbn [andb app] in M. destruct ws as [|w [|w' ws]]; try discriminate. injection M as V1 V2 V3.
  assert (P : write_to_filesystem cwd d w = Panic).
  { unfold write_to_filesystem, write_to_filesystem_n. rewrite V1. rewrite split_join; [|intros X; apply app_eq_nil in X as [_ X]; discriminate|].
    - rewrite last_last. replace (is_special n) with true; [reflexivity|]. destruct I as [<-|[<-|[<-|[]]]]; reflexivity.
    - apply Forall_app. split; [auto|]. constructor; [|constructor].
      destruct I as [<-|[<-|[<-|[]]]]; cbn; intros X; repeat destruct X as [X|X]; try discriminate; auto. }
  unfold write, write_left. rewrite E. cbn [obind run_writers left_by_all]. rewrite P. cbn [obind]. split; [auto|].
  intros l. unfold left_by. destruct (existsb _ _); [auto|]. apply made_changes.
Qed.

(** ** When getting a description aborts *)

Lemma c65_save_aborts : forall accept d l i, save accept d l i <> OutOfFuel /\ (save accept d l i = Panic <-> d l = Some NDir).
Proof. intros accept d l i. unfold save. destruct (d l) as [[|c]|]; (split; [discriminate|split; congruence]). Qed.

Lemma c65_description_aborts : forall accept fuel cwd d net pid h ep,
  let place := in_downloads cwd (encode_binary h) in
  collect_info accept fuel cwd d net pid h ep = Panic <->
  (exists c, d (cwd ++ [s2b "downloads"]) = Some (NFile c)) \/
  (exists c, d place = Some (NFile c) /\ (exists ns, text_of ns c) /\ forall i, ~ describes_torrent c i) \/
  ((d place = None \/ d place = Some NDir \/ not_text d place) /\
   (get_info fuel net pid h ep = Panic \/ (d place = Some NDir /\ exists i, get_info fuel net pid h ep = Ret (Ok i)))).
Proof.
  intros accept fuel cwd d net pid h ep place. unfold collect_info. change (s2b "downloads") with downloads.
  change (cache_loc cwd h) with place.
  destruct (walk_create d cwd [dot; downloads]) as [[d1 at_]|] eqn:W.
  - destruct (walk_downloads _ _ _ _ W) as (_ & D1 & Do & _).
    assert (ND : forall c, d (cwd ++ [downloads]) <> Some (NFile c)).
    { intros c E. apply create_made in W. destruct (made_changes [dot; downloads] d cwd (cwd ++ [downloads])) as [H|[H _]]; congruence. }
    assert (EL : d1 place = d place).
    { apply Do. unfold place, in_downloads. intros E. apply app_inv_head in E. discriminate. }
    assert (EF : from_file d1 place = from_file d place) by (unfold from_file; rewrite EL; auto). rewrite EF.
    destruct (from_file d place) as [[i|e]| |] eqn:F; cbn [obind].
    + split; [discriminate|]. intros [(c & E)|[(c & E & T & N)|(E & _)]]; [now apply ND in E| |]; exfalso.
      * apply c64_file in F as (c' & E' & _ & Q). replace c' with c in Q by congruence. eapply N; eauto.
      * apply c64_file in F as (c' & E' & T & Q). destruct E as [E|[E|(c & E & N)]]; try congruence. apply N. replace c with c' by congruence. auto.
    + assert (P : d place = None \/ d place = Some NDir \/ not_text d place).
      { unfold from_file in F. destruct (d place) as [[|c]|] eqn:E; auto. right. right. exists c. split; [auto|].
        destruct (utf8_valid c) eqn:U; [destruct (info_from_json c); discriminate|]. intros X. apply c64_text in X. congruence. }
      assert (NT : forall c, d place = Some (NFile c) -> (exists ns, text_of ns c) -> False).
      { intros c E T. destruct P as [P|[P|(c' & P & N)]]; try congruence. apply N. replace c' with c by congruence. auto. }
      destruct (get_info fuel net pid h ep) as [[i|e']| |]; cbn [obind].
      * unfold save. rewrite EL. split.
        -- intros H. right. right. split; [auto|]. right. destruct (d place) as [[|c]|]; try discriminate. eauto.
        -- intros [(c & E)|[(c & E & T & _)|(_ & [E|(-> & _)])]]; [now apply ND in E|exfalso; eauto|discriminate|reflexivity].
      * split; [discriminate|]. intros [(c & E)|[(c & E & T & _)|(_ & [E|(_ & i & E)])]]; [now apply ND in E|exfalso; eauto|discriminate|discriminate].
      * split; [|auto]. intros _. auto.
      * split; [discriminate|]. intros [(c & E)|[(c & E & T & _)|(_ & [E|(_ & i & E)])]]; [now apply ND in E|exfalso; eauto|discriminate|discriminate].
    + split; [|auto]. intros _. right. left. apply c64_abort in F. auto.
    + exfalso. unfold from_file in F. destruct (d place) as [[|c]|]; try discriminate. destruct (utf8_valid c); [|discriminate]. destruct (info_from_json c); discriminate.
  - split; [|auto]. intros _. left. cbn [walk_create] in W.
    change (bytes_eqb dot [] || bytes_eqb dot dot) with true in W. cbv iota in W.
    change (bytes_eqb downloads [] || bytes_eqb downloads dot) with false in W. change (bytes_eqb downloads dotdot) with false in W. cbv iota zeta in W.
    destruct (d (cwd ++ [downloads])) as [[|c]|]; try discriminate. eauto.
Qed.
