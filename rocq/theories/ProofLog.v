(** ProofLog: proofs for PropLog *)
From Coq Require Import Lia Permutation.
From Verif Require Import Base Utf8 ModelBencode ModelMessages ModelTorrent ModelWriter ModelTracker ModelStream
  ModelPeer ModelActors ModelCache ModelMain ModelLog ProofBase SpecTorrent ProofTorrent SpecWriter ProofWriter SpecPieces
  SpecPeer ProofPeer SpecSystem ProofSystem SpecCache SpecMain ProofMain SpecText SpecDisk ProofDisk SpecLog.

(** ** Segments of paths *)

Lemma split_segments : forall t, exists h r, split_slash t = h :: r /\
  (exists b, t = h ++ b /\ (b = [] \/ exists b', b = s2b "/" ++ b')) /\
  (forall n, In n r -> exists a b, t = (a ++ s2b "/") ++ n ++ b /\ (b = [] \/ exists b', b = s2b "/" ++ b')).
Proof.
  induction t as [|x t (h & r & E & (b & Eb & Hb) & R)].
  - exists [], []. split; [auto|]. split; [exists []; auto|]. intros n [].
  - cbn [split_slash]. destruct (N.eqb_spec x 47) as [->|NX].
    + exists [], (split_slash t). split; [auto|]. split; [exists (47%N :: t); split; [auto|right; exists t; auto]|].
      intros n I. rewrite E in I. destruct I as [<-|I].
      * exists [], b. split; [cbn; f_equal; auto|auto].
      * destruct (R n I) as (a & b2 & E2 & H2). exists (47%N :: a), b2. split; [cbn; f_equal; rewrite E2; auto|auto].
    + rewrite E. exists (x :: h), r. split; [auto|]. split; [exists b; split; [cbn; f_equal; auto|auto]|].
      intros n I. destruct (R n I) as (a & b2 & E2 & H2). exists (x :: a), b2. split; [cbn; f_equal; auto|auto].
Qed.
Lemma split_has : forall n t, In n (split_slash t) -> has_segment n t.
Proof.
  intros n t I. destruct (split_segments t) as (h & r & E & (b & Eb & Hb) & R). rewrite E in I. destruct I as [<-|I].
  - exists [], b. auto.
  - destruct (R n I) as (a & b2 & E2 & H2). exists (a ++ s2b "/"), b2. split; [auto|]. split; [right; exists a; auto|auto].
Qed.
Lemma split_app : forall a b, split_slash (a ++ 47%N :: b) = split_slash a ++ split_slash b.
Proof.
  induction a as [|x a IH]; intros b; [reflexivity|]. cbn [app split_slash]. destruct (x =? 47)%N; [rewrite IH; auto|].
  rewrite IH. destruct (split_segments a) as (h & r & E & _). rewrite E. reflexivity.
Qed.
Lemma split_join_has : forall n path, n <> [] -> In n (split_slash (join_slash path)) -> exists t, In t path /\ has_segment n t.
Proof.
  intros n path Hn. induction path as [|x [|y path] IH]; intros I.
  - cbn in I. destruct I as [E|[]]; congruence.
  - exists x. split; [left; auto|apply split_has; auto].
  - change (join_slash (x :: y :: path)) with (x ++ 47%N :: join_slash (y :: path)) in I. rewrite split_app in I.
    apply in_app_or in I as [I|I]; [exists x; split; [left; auto|apply split_has; auto]|].
    destruct (IH I) as (t & It & S). exists t. split; [right; auto|auto].
Qed.

(** ** Disks that differ at one location, and walks that do not come there *)

Definition off (L : loc) (d d' : fs) : Prop := forall l, l <> L -> d l = d' l.
Definition clear (L at_ : loc) : Prop := ~ is_prefix L at_.

Lemma clear_last : forall L at_, clear L at_ -> clear L (removelast at_).
Proof.
  intros L at_ C (r & E). apply C. destruct at_ as [|x t] using rev_ind; [exists r; auto|]. rewrite removelast_last in E.
  exists (r ++ [x]). rewrite E. now rewrite app_assoc.
Qed.
Lemma clear_app : forall c m at_ n, clear (c ++ [m]) at_ -> n <> m -> clear (c ++ [m]) (at_ ++ [n]).
Proof.
  intros c m at_ n C N (r & E). destruct r as [|x r] using rev_ind.
  - rewrite app_nil_r in E. apply app_inj_tail in E as [_ E]. congruence.
  - rewrite app_assoc in E. apply app_inj_tail in E as [E _]. apply C. exists r. auto.
Qed.
Lemma clear_neq : forall L l, clear L l -> l <> L.
Proof. intros L l C ->. apply C. exists []. now rewrite app_nil_r. Qed.
Lemma clear_cwd : forall c m, clear (c ++ [m]) c.
Proof. intros c m (r & E). apply (f_equal (@List.length _)) in E. rewrite !app_length in E. cbn in E. lia. Qed.
Lemma clear_root : forall c m, clear (c ++ [m]) [].
Proof. intros c m (r & E). destruct c; discriminate. Qed.

Lemma off_set : forall L d d' l n, off L d d' -> l <> L -> off L (fs_set d l n) (fs_set d' l n).
Proof. intros L d d' l n H N l' N'. unfold fs_set. destruct (loc_eqb l l'); auto. Qed.
Lemma set_at : forall (d : fs) l n L, l <> L -> fs_set d l n L = d L.
Proof. intros d l n L N. unfold fs_set. destruct (loc_eqb l L) eqn:E; auto. apply loc_eqb_eq in E. congruence. Qed.

(** A walk that does not come to [L], and where it ends. *)
Fixpoint goes (at_ : loc) (names : list bytes) : loc :=
  match names with
  | [] => at_
  | n :: rest =>
    if bytes_eqb n [] || bytes_eqb n dot then goes at_ rest
    else if bytes_eqb n dotdot then goes (removelast at_) rest
    else goes (at_ ++ [n]) rest
  end.
Fixpoint stays_off (L at_ : loc) (names : list bytes) : Prop :=
  match names with
  | [] => True
  | n :: rest =>
    if bytes_eqb n [] || bytes_eqb n dot then stays_off L at_ rest
    else if bytes_eqb n dotdot then stays_off L (removelast at_) rest
    else at_ ++ [n] <> L /\ stays_off L (at_ ++ [n]) rest
  end.
Lemma stays_app : forall L xs at_ ys, stays_off L at_ (xs ++ ys) -> stays_off L at_ xs /\ stays_off L (goes at_ xs) ys.
Proof.
  induction xs as [|n xs IH]; intros at_ ys; cbn [app goes stays_off]; [auto|].
  destruct (bytes_eqb n [] || bytes_eqb n dot); [apply IH|]. destruct (bytes_eqb n dotdot); [apply IH|].
  intros [H1 H2]. apply IH in H2 as [H2 H3]. auto.
Qed.
Lemma stays_unnamed : forall c m names at_, clear (c ++ [m]) at_ -> ~ In m names -> stays_off (c ++ [m]) at_ names.
Proof.
  intros c m. induction names as [|n names IH]; intros at_ C NI; cbn [stays_off]; [auto|].
  assert (NI' : ~ In m names) by (intros X; apply NI; right; auto).
  assert (NM : n <> m) by (intros ->; apply NI; left; auto).
  destruct (bytes_eqb n [] || bytes_eqb n dot); [apply IH; auto|].
  destruct (bytes_eqb n dotdot); [apply IH; auto; apply clear_last; auto|].
  assert (C' : clear (c ++ [m]) (at_ ++ [n])) by (apply clear_app; auto). split; [apply clear_neq; auto|apply IH; auto].
Qed.
Lemma stays_plain : forall c m names, Forall plain_name names -> hd [] names <> m -> stays_off (c ++ [m]) c names.
Proof.
  intros c m names P H. assert (G : forall names q, Forall plain_name names -> q <> [] -> hd [] q <> m -> stays_off (c ++ [m]) (c ++ q) names).
  { clear. induction names as [|n names IH]; intros q P Q H; cbn [stays_off]; [auto|]. inversion P as [|? ? (P1 & _ & P2 & P3) P']; subst.
    rewrite (proj2 (bytes_eqb_neq n []) P1), (proj2 (bytes_eqb_neq n dot) P2), (proj2 (bytes_eqb_neq n dotdot) P3). cbn [orb].
    rewrite <- app_assoc. split.
    - intros E. apply app_inv_head in E. destruct q as [|a q]; [congruence|]. cbn in E, H. injection E as E _. congruence.
    - apply IH; auto; destruct q; cbn in *; congruence. }
  destruct names as [|n names]; cbn [stays_off]; [auto|]. cbn [hd] in H. inversion P as [|? ? (P1 & _ & P2 & P3) P']; subst.
  rewrite (proj2 (bytes_eqb_neq n []) P1), (proj2 (bytes_eqb_neq n dot) P2), (proj2 (bytes_eqb_neq n dotdot) P3). cbn [orb].
  split; [intros E; apply app_inv_head in E; congruence|]. apply G; [auto|discriminate|auto].
Qed.

Lemma walk_off : forall L names at_ d d', off L d d' -> stays_off L at_ names ->
  match walk_create d at_ names, walk_create d' at_ names with
  | Some (d1, l1), Some (d2, l2) => l1 = goes at_ names /\ l2 = goes at_ names /\ off L d1 d2 /\ d1 L = d L /\ d2 L = d' L
  | None, None => True
  | _, _ => False
  end.
Proof.
  intros L names. induction names as [|n names IH]; intros at_ d d' O S; cbn [walk_create goes stays_off] in *; [auto|].
  destruct (bytes_eqb n [] || bytes_eqb n dot); [apply IH; auto|].
  destruct (bytes_eqb n dotdot); [apply IH; auto|]. destruct S as [NE S].
  rewrite <- (O _ NE). destruct (d (at_ ++ [n])) as [[|x]|]; [apply IH; auto|auto|].
  pose proof (IH (at_ ++ [n]) (fs_set d (at_ ++ [n]) NDir) (fs_set d' (at_ ++ [n]) NDir) (off_set _ _ _ _ _ O NE) S) as H.
  rewrite !(set_at _ _ _ _ NE) in H. exact H.
Qed.
Lemma made_off : forall L names at_ d d', off L d d' -> stays_off L at_ names ->
  off L (walk_made d at_ names) (walk_made d' at_ names) /\ walk_made d at_ names L = d L.
Proof.
  intros L names. induction names as [|n names IH]; intros at_ d d' O S; cbn [walk_made stays_off] in *; [auto|].
  destruct (bytes_eqb n [] || bytes_eqb n dot); [apply IH; auto|].
  destruct (bytes_eqb n dotdot); [apply IH; auto|]. destruct S as [NE S].
  rewrite <- (O _ NE). destruct (d (at_ ++ [n])) as [[|x]|]; [apply IH; auto|auto|].
  pose proof (IH (at_ ++ [n]) (fs_set d (at_ ++ [n]) NDir) (fs_set d' (at_ ++ [n]) NDir) (off_set _ _ _ _ _ O NE) S) as H.
  rewrite !(set_at _ _ _ _ NE) in H. exact H.
Qed.

(** ** Writing *)

Definition alike_ends (L : loc) (d d' : fs) (a b : outcome fs) : Prop :=
  match a, b with
  | Ret x, Ret y => off L x y /\ x L = d L
  | Panic, Panic => True
  | OutOfFuel, OutOfFuel => True
  | _, _ => False
  end.
(** Where the path of a file begins. *)
Definition begins (c : loc) (path : list bytes) : loc :=
  match join_slash path with
  | b :: _ => if (b =? 47)%N then [] else c
  | [] => c
  end.
Definition spares (L c : loc) (path : list bytes) : Prop := stays_off L (begins c path) (split_slash (join_slash path)).
Lemma split_nonempty : forall t, split_slash t <> [].
Proof. intros t. destruct (split_segments t) as (h & r & E & _). rewrite E. discriminate. Qed.

Lemma wfs_off : forall n L c d d' w, off L d d' -> spares L c (fw_path w) ->
  alike_ends L d d' (write_to_filesystem_n n c d w) (write_to_filesystem_n n c d' w).
Proof.
  intros n L c d d' w O S. unfold write_to_filesystem_n. cbv zeta. unfold spares in S.
  pose proof (split_nonempty (join_slash (fw_path w))) as NS.
  destruct (is_special (last (split_slash (join_slash (fw_path w))) []) || existsb (N.eqb 0) (join_slash (fw_path w))) eqn:SP; [exact I|].
  fold (begins c (fw_path w)). set (st := begins c (fw_path w)) in *. set (segs := split_slash (join_slash (fw_path w))) in *.
  apply Bool.orb_false_iff in SP as [SP _]. unfold is_special in SP. apply Bool.orb_false_iff in SP as [SP SP3].
  rewrite (app_removelast_last [] NS) in S. apply stays_app in S as [S1 S2]. cbn [stays_off] in S2. 
  assert (NE : goes st (removelast segs) ++ [last segs []] <> L) by (unfold bytes in S2, SP, SP3; rewrite SP, SP3 in S2; exact (proj1 S2)).
  pose proof (walk_off L (removelast segs) st d d' O S1) as W.
  destruct (walk_create d st (removelast segs)) as [[d1 l1]|], (walk_create d' st (removelast segs)) as [[d2 l2]|]; try contradiction; try exact I.
  destruct W as (-> & -> & O1 & E1 & E2).
  rewrite <- (O1 _ NE). destruct (d1 (goes st (removelast segs) ++ [last segs []])) as [[|x]|]; [exact I| |]; cbn [alike_ends];
    (split; [apply off_set; auto|rewrite set_at by auto; exact E1]).
Qed.
Lemma drop_suffix : forall l, exists q, l = q ++ drop_stays l.
Proof.
  induction l as [|y l (q & IH)]; cbn [drop_stays]; [exists []; auto|].
  destruct (bytes_eqb y [] || bytes_eqb y dot); [exists (y :: q); cbn; f_equal; auto|exists []; auto].
Qed.
Lemma left_off : forall L c d d' w, off L d d' -> spares L c (fw_path w) ->
  off L (left_by c d w) (left_by c d' w) /\ left_by c d w L = d L.
Proof.
  intros L c d d' w O S. unfold left_by. cbv zeta. unfold spares in S. fold (begins c (fw_path w)).
  set (segs := split_slash (join_slash (fw_path w))) in *. set (dirs := removelast (rev (drop_stays (rev segs)))).
  destruct (existsb (existsb (N.eqb 0)) dirs); [auto|]. apply made_off; auto.
  assert (P : exists r, segs = dirs ++ r).
  { unfold dirs. destruct (drop_suffix (rev segs)) as (q & E). apply (f_equal (@rev _)) in E. rewrite rev_involutive, rev_app_distr in E.
    destruct (rev (drop_stays (rev segs))) as [|x t _] using rev_ind; [exists segs; auto|]. rewrite removelast_last.
    exists (x :: rev q). rewrite E. rewrite <- app_assoc. auto. }
  destruct P as (r & P). rewrite P in S. apply stays_app in S as [S _]. auto.
Qed.
Lemma run_off : forall L c ws d d', off L d d' -> Forall (fun w => spares L c (fw_path w)) ws ->
  alike_ends L d d' (run_writers c d ws) (run_writers c d' ws) /\
  off L (left_by_all c d ws) (left_by_all c d' ws) /\ left_by_all c d ws L = d L.
Proof.
  intros L c ws. induction ws as [|w ws IH]; intros d d' O F; cbn [run_writers left_by_all]; [cbn; auto|].
  inversion F as [|? ? S F']; subst. unfold write_to_filesystem. pose proof (wfs_off (List.length (fw_piece w)) L c d d' w O S) as W.
  pose proof (left_off L c d d' w O S) as LO.
  destruct (write_to_filesystem_n (List.length (fw_piece w)) c d w) as [x| |] eqn:E1,
           (write_to_filesystem_n (List.length (fw_piece w)) c d' w) as [y| |] eqn:E2; cbn [alike_ends] in W; try contradiction; cbn [obind].
  - destruct W as [O2 EX]. pose proof (IH x y O2 F') as [A B]. rewrite EX in B. split; [|exact B].
    unfold alike_ends in *. destruct (run_writers c x ws), (run_writers c y ws); auto. rewrite EX in A. auto.
  - split; [exact I|exact LO].
  - split; [exact I|exact LO].
Qed.
Lemma write_off : forall p L c d d' piece idx files plen, off L d d' -> Forall (fun f => spares L c (f_path f)) files ->
  alike_ends L d d' (write p c d piece idx files plen) (write p c d' piece idx files plen) /\
  off L (write_left p c d piece idx files plen) (write_left p c d' piece idx files plen) /\
  write_left p c d piece idx files plen L = d L.
Proof.
  intros p L c d d' piece idx files plen O F. unfold write, write_left.
  destruct (get_file_writers p files piece idx plen) as [ws| |] eqn:E; cbn [obind]; [|cbn; auto..].
  apply run_off; auto. exact (writers_paths p files piece idx plen ws (spares L c) E F).
Qed.

(** ** Getting a description *)

Lemma log_in : forall cwd l, log_place cwd = cwd ++ l -> l = [s2b "test.log"].
Proof. intros cwd l E. unfold log_place in E. apply app_inv_head in E. auto. Qed.
Lemma off_log_cache : forall cwd h, cache_loc cwd h <> log_place cwd.
Proof. intros cwd h E. symmetry in E. unfold cache_loc in E. apply log_in in E. discriminate. Qed.
Lemma names_not_log : ~ In (s2b "test.log") [dot; downloads].
Proof. intros [E|[E|[]]]; discriminate. Qed.

Definition alike_info (L : loc) (d : fs) (a b : outcome (option info * fs)) : Prop :=
  match a, b with
  | Ret (r, x), Ret (r', y) => r = r' /\ off L x y /\ x L = d L
  | Panic, Panic => True
  | OutOfFuel, OutOfFuel => True
  | _, _ => False
  end.
Lemma collect_off : forall accept fuel cwd d d' net pid h ep, off (log_place cwd) d d' ->
  alike_info (log_place cwd) d (collect_info accept fuel cwd d net pid h ep) (collect_info accept fuel cwd d' net pid h ep).
Proof.
  intros accept fuel cwd d d' net pid h ep O. unfold collect_info.
  pose proof (walk_off (log_place cwd) [dot; downloads] cwd d d' O (stays_unnamed _ _ _ _ (clear_cwd _ _) names_not_log)) as W.
  destruct (walk_create d cwd [dot; downloads]) as [[d1 l1]|], (walk_create d' cwd [dot; downloads]) as [[d2 l2]|];
    try contradiction; [|exact I]. destruct W as (_ & _ & O1 & E1 & _). pose proof (off_log_cache cwd h) as NC.
  assert (EF : from_file d1 (cache_loc cwd h) = from_file d2 (cache_loc cwd h)) by (unfold from_file; rewrite (O1 _ NC); auto).
  rewrite EF. destruct (from_file d2 (cache_loc cwd h)) as [[i|e]| |]; cbn [obind]; [cbn; auto| |cbn; auto|cbn; auto].
  destruct (get_info fuel net pid h ep) as [[i|e']| |]; cbn [obind]; [|cbn; auto..].
  unfold save. rewrite (O1 _ NC).
  destruct (d2 (cache_loc cwd h)) as [[|c]|]; cbn [obind]; [exact I| |];
    (split; [auto|]; split; [apply off_set; auto|rewrite set_at; auto]).
Qed.
Lemma downloads_made_off : forall cwd d d', off (log_place cwd) d d' ->
  off (log_place cwd) (downloads_made cwd d) (downloads_made cwd d') /\ downloads_made cwd d (log_place cwd) = d (log_place cwd).
Proof.
  intros cwd d d' O. unfold downloads_made.
  pose proof (walk_off (log_place cwd) [dot; downloads] cwd d d' O (stays_unnamed _ _ _ _ (clear_cwd _ _) names_not_log)) as W.
  destruct (walk_create d cwd [dot; downloads]) as [[d1 l1]|], (walk_create d' cwd [dot; downloads]) as [[d2 l2]|];
    try contradiction; [|auto]. destruct W as (_ & _ & O1 & E1 & _). auto.
Qed.

(** ** One torrent *)

Lemma sys_same : forall sha1 p cwd o x y d d', same_torrent x y -> off (log_place cwd) d d' ->
  (o = OWrite -> forall r rest, sy_writer x = r :: rest -> sy_writer_dead x = false ->
     Forall (fun f => spares (log_place cwd) cwd (f_path f)) (rd_files r)) ->
  let x' := sys_step sha1 p cwd (set_disk d x) o in
  let y' := sys_step sha1 p cwd (set_disk d' y) o in
  same_torrent x' y' /\ off (log_place cwd) (sy_disk x') (sy_disk y') /\ sy_disk x' (log_place cwd) = d (log_place cwd).
Proof.
  intros sha1 p cwd o x y d d' ((A1 & A2 & A3 & A4 & A5 & A6 & A7) & A8 & A9) O F.
  destruct x as [xa xd xm xq xw xn xr xrd xk xt], y as [ya yd ym yq yw yn yr yrd yk yt].
  cbn [sy_actor sy_dead sy_mail sy_queue sy_working sy_workers sy_writer sy_writer_dead sy_trace] in *. subst.
  assert (T : forall a b c d e f g h i k k', same_torrent (Build_sys a b c d e f g h k i) (Build_sys a b c d e f g h k' i)).
  { intros. unfold same_torrent, agree. cbn. auto 20. }
  cbv zeta. unfold set_disk. cbn [sy_actor sy_dead sy_mail sy_queue sy_working sy_workers sy_writer sy_writer_dead sy_trace].
  destruct o as [ep|k found shuffle| |k net pid fuel|];
    cbn [sys_step sy_actor sy_dead sy_mail sy_queue sy_working sy_workers sy_writer sy_writer_dead sy_disk sy_trace].
  - split; [apply T|]. auto.
  - destruct yd; [split; [apply T|]; auto|]. destruct (nth_error ym k) as [m|]; [|split; [apply T|]; auto].
    destruct (handle p found shuffle ya m) as [[a es]| |]; (split; [apply T|]; auto).
  - destruct yq as [|r rest]; [split; [apply T|]; auto|].
    destruct (List.length yw <? yn)%nat; (split; [apply T|]; auto).
  - destruct (nth_error yw k) as [r|]; [|split; [apply T|]; auto].
    destruct (download sha1 p fuel net pid (rq_endpoint r) (rq_info r) (rq_idx r)) as [[piece|e]| |]; (split; [apply T|]; auto).
  - destruct yrd; [split; [apply T|]; auto|]. destruct yr as [|r rest]; [split; [apply T|]; auto|].
    pose proof (write_off p (log_place cwd) cwd d d' (rd_piece r) (rd_idx r) (rd_files r) (rd_piece_length r) O
      (F eq_refl r rest eq_refl eq_refl)) as (W & OL & EL).
    destruct (write p cwd d (rd_piece r) (rd_idx r) (rd_files r) (rd_piece_length r)) as [x| |],
             (write p cwd d' (rd_piece r) (rd_idx r) (rd_files r) (rd_piece_length r)) as [y| |]; cbn [alike_ends] in W; try contradiction;
      (split; [apply T|]; cbn [sy_disk]; auto).
Qed.

(** ** The process *)

Lemma f2_nth : forall {A} (R : A -> A -> Prop) l l' k, Forall2 R l l' ->
  match nth_error l k, nth_error l' k with Some x, Some y => R x y | None, None => True | _, _ => False end.
Proof. intros A R l l' k F. revert k. induction F as [|x y l l' H F IH]; intros [|k]; cbn [nth_error]; [exact I|exact I|exact H|apply IH]. Qed.
Lemma f2_length : forall {A} (R : A -> A -> Prop) l l', Forall2 R l l' -> List.length l = List.length l'.
Proof. intros A R l l' F. induction F; cbn; auto. Qed.
Lemma f2_update : forall {A} (R : A -> A -> Prop) l l' k f g, Forall2 R l l' ->
  (forall x y, nth_error l k = Some x -> nth_error l' k = Some y -> R x y -> R (f x) (g y)) ->
  Forall2 R (update_nth k f l) (update_nth k g l').
Proof.
  intros A R l l' k f g F. revert k. induction F as [|x y l l' H F IH]; intros [|k] G; cbn [update_nth]; constructor; auto.
Qed.
Lemma step_same : forall sha1 p cwd s s0 t o, same_but (log_place cwd) s s0 ->
  (o = OWrite -> forall x r rest, nth_error (pr_torrents s) t = Some x -> sy_writer x = r :: rest -> sy_writer_dead x = false ->
     Forall (fun f => spares (log_place cwd) cwd (f_path f)) (rd_files r)) ->
  same_but (log_place cwd) (torrent_step sha1 p cwd s t o) (torrent_step sha1 p cwd s0 t o) /\
  pr_disk (torrent_step sha1 p cwd s t o) (log_place cwd) = pr_disk s (log_place cwd).
Proof.
  intros sha1 p cwd s s0 t o (F & E1 & E2 & O) W. unfold torrent_step. pose proof (f2_nth _ _ _ t F) as N.
  destruct (nth_error (pr_torrents s) t) as [x|] eqn:EX, (nth_error (pr_torrents s0) t) as [y|] eqn:EY; try contradiction.
  - pose proof (sys_same sha1 p cwd o x y (pr_disk s) (pr_disk s0) N O (fun E r rest => W E x r rest eq_refl)) as (A & B & C).
    cbv zeta in A, B, C. cbn [pr_disk pr_torrents pr_interface pr_trackers]. split; [|exact C].
    split; [|split; [auto|split; [auto|exact B]]]. cbn [pr_torrents]. apply f2_update; auto.
  - split; [split; auto|auto].
Qed.

Lemma same_files : forall L s s0 path, same_but L s s0 -> some_file s0 path -> some_file s path.
Proof.
  intros L s s0 path (F & _) (x & i & files & f & I & E & R). apply In_nth_error in I as (t & N).
  pose proof (f2_nth _ _ _ t F) as M. rewrite N in M. destruct (nth_error (pr_torrents s) t) as [y|] eqn:EY; [|contradiction].
  destruct M as ((A & _) & _). exists y, i, files, f. split; [eapply nth_error_In; eauto|]. rewrite A. auto.
Qed.
(** What the writer of a torrent is to write belongs to files of the torrent. *)
Lemma writer_files : forall sha1 p cwd d ops s, started sha1 p cwd d ops s -> forall t x r rest,
  nth_error (pr_torrents s) t = Some x -> sy_writer x = r :: rest -> forall f, In f (rd_files r) -> some_file s (f_path f).
Proof.
  intros sha1 p cwd d ops s R t x r rest EX W f I.
  pose proof (readies_good _ _ _ _ _ _ R t x EX) as G. destruct (writer_suffix _ _ _ _ _ _ R t x EX) as (done & ET).
  rewrite ET in G. rewrite W in G.
  destruct (ta_info (sy_actor x)) as [i|] eqn:EI; [|apply app_eq_nil in G as [_ G]; discriminate].
  destruct G as (n & files & _ & GF & G). apply Forall_app in G as [_ G]. inversion G as [|? ? (F1 & _) _]; subst.
  apply c11_files in GF. exists x, i, (rd_files r), f. split; [eapply nth_error_In; eauto|auto].
Qed.
Lemma spared_split : forall cwd s path, spares_log s -> some_file s path -> spares (log_place cwd) cwd path.
Proof.
  intros cwd s path S F. unfold spares, log_place. destruct (S path F) as [H|[P H]].
  - apply stays_unnamed.
    + unfold begins. destruct (join_slash path) as [|b ?]; [apply clear_cwd|]. destruct (b =? 47)%N; [apply clear_root|apply clear_cwd].
    + intros I. apply split_join_has in I as (t & It & Hs); [|discriminate]. exact (H t It Hs).
  - destruct (sane_text path P) as (E1 & _ & _ & E4). rewrite E1. replace (begins cwd path) with cwd.
    + apply stays_plain; [eapply Forall_impl; [apply sane_plain|exact (proj2 P)]|auto].
    + unfold begins. destruct (join_slash path); [auto|rewrite E4; auto].
Qed.

Lemma act_same : forall sha1 p cwd d ops s s0 o, started sha1 p cwd d ops s0 -> same_but (log_place cwd) s s0 -> spares_log s ->
  same_but (log_place cwd) (pr_step sha1 p cwd s o) (pr_step sha1 p cwd s0 o) /\
  pr_disk (pr_step sha1 p cwd s o) (log_place cwd) = pr_disk s (log_place cwd).
Proof.
  intros sha1 p cwd d ops s s0 o R B S. pose proof B as (F & E1 & E2 & O).
  destruct o as [raw full|full|k|k j e|k j connects|t k accept fuel net pid shuffle|t|t i net pid fuel|t]; cbn [pr_step].
  - destruct (add_cases p full raw s) as [(h & A & _ & E)|(A & _ & E)], (add_cases p full raw s0) as [(h' & A' & _ & E')|(A' & _ & E')];
      try congruence; rewrite E, E'; [|auto]. assert (h' = h) by congruence. subst h'. split; [|auto].
    split; [|split; [|split; [auto|exact O]]]; cbn [pr_torrents pr_interface].
    + apply Forall2_app; [auto|]. constructor; [|constructor]. unfold same_torrent, agree, sys_init. cbn. auto 20.
    + rewrite E1. rewrite (f2_length _ _ _ F). auto.
  - rewrite E1. destruct (pr_interface s0) as [|r rest]; [auto|]. split; [|auto]. split; [auto|]. rewrite E2. auto.
  - split; [|auto]. split; [auto|]. unfold with_trackers. cbn [pr_interface pr_trackers pr_disk]. rewrite E2. auto.
  - split; [|auto]. split; [auto|]. unfold with_trackers. cbn [pr_interface pr_trackers pr_disk]. rewrite E2. auto.
  - rewrite E2. destruct (nth_error (pr_trackers s0) k) as [x|]; [|auto].
    destruct (nth_error (tk_jobs x) j) as [[r|r [|e rest]]|]; [auto| | |auto].
    + split; [|auto]. split; [auto|]. unfold with_trackers. cbn [pr_interface pr_trackers pr_disk]. auto.
    + match goal with |- same_but _ (if _ then torrent_step _ _ _ ?a _ _ else _) (if _ then torrent_step _ _ _ ?b _ _ else _) /\ _ =>
        assert (B' : same_but (log_place cwd) a b) by (split; [auto|]; unfold with_trackers; cbn [pr_interface pr_trackers pr_disk]; auto) end.
      destruct (is_reachable connects (endpoint e)); [|auto]. apply (step_same sha1 p cwd _ _ (rg_torrent r) (OPeer (endpoint e)) B'). discriminate.
  - pose proof (f2_nth _ _ _ t F) as N.
    destruct (nth_error (pr_torrents s) t) as [x|] eqn:EX, (nth_error (pr_torrents s0) t) as [y|] eqn:EY; try contradiction; [|auto].
    destruct N as ((A1 & A2 & A3 & _) & _). rewrite A1, A2, A3.
    assert (H : same_but (log_place cwd) (torrent_step sha1 p cwd s t (OHandle k (Ret None) shuffle))
                 (torrent_step sha1 p cwd s0 t (OHandle k (Ret None) shuffle)) /\
               pr_disk (torrent_step sha1 p cwd s t (OHandle k (Ret None) shuffle)) (log_place cwd) = pr_disk s (log_place cwd))
      by (apply step_same; auto; discriminate).
    destruct (nth_error (sy_mail y) k) as [[]|]; try exact H. destruct (ta_info (sy_actor y)); [exact H|]. destruct (sy_dead y); [exact H|].
    clear H. pose proof (collect_off accept fuel cwd _ _ net pid (ta_info_hash (sy_actor y)) ep O) as C.
    pose proof (downloads_made_off cwd _ _ O) as (O2 & ED).
    assert (D : forall a b, off (log_place cwd) a b -> same_but (log_place cwd) (with_disk s a) (with_disk s0 b)) by
      (intros a b H; split; [auto|]; unfold with_disk; cbn [pr_interface pr_trackers pr_disk]; auto).
    destruct (collect_info accept fuel cwd (pr_disk s) net pid (ta_info_hash (sy_actor y)) ep) as [[f1 d1]| |],
             (collect_info accept fuel cwd (pr_disk s0) net pid (ta_info_hash (sy_actor y)) ep) as [[f2 d2]| |]; cbn [alike_info] in C; try contradiction.
    + destruct C as (<- & OC & EC). rewrite <- EC. change (d1 (log_place cwd)) with (pr_disk (with_disk s d1) (log_place cwd)).
      apply step_same; [auto|discriminate].
    + rewrite <- ED. change (downloads_made cwd (pr_disk s) (log_place cwd)) with (pr_disk (with_disk s (downloads_made cwd (pr_disk s))) (log_place cwd)).
      apply step_same; [auto|discriminate].
    + split; [auto|exact ED].
  - apply step_same; auto. discriminate.
  - apply step_same; auto. discriminate.
  - apply step_same; auto. intros _ x r rest EX W _. apply Forall_forall. intros f I. apply (spared_split cwd s); [auto|].
    apply (same_files _ _ _ _ B). pose proof (f2_nth _ _ _ t F) as N. rewrite EX in N.
    destruct (nth_error (pr_torrents s0) t) as [y|] eqn:EY; [|contradiction]. destruct N as (_ & W2 & _).
    refine (writer_files _ _ _ _ _ _ R t y r rest EY _ f I). congruence.
Qed.

Lemma write_at_end : forall c l, write_at c (lenN c) l = c ++ l.
Proof.
  intros c l. unfold write_at. destruct l as [|b l]; [now rewrite app_nil_r|]. unfold lenN. rewrite Nat2N.id, firstn_all, Nat.sub_diag.
  rewrite (skipn_all2 c) by lia. cbn [repeat app]. now rewrite app_nil_r.
Qed.
Lemma spares_back : forall sha1 p cwd s o, spares_log (lg_process (log_step sha1 p cwd s o)) -> spares_log (lg_process s).
Proof.
  intros sha1 p cwd s o S path F. apply (S path). destruct o as [o|line]; cbn [log_step lg_process].
  - apply some_file_step. auto.
  - destruct (pr_disk (lg_process s) (log_place cwd)) as [[|c]|]; auto.
Qed.

Lemma c77_apart : forall sha1 p cwd d ops s, runs sha1 p cwd d ops s -> spares_log (lg_process s) ->
  same_but (cwd ++ [s2b "test.log"]) (lg_process s) (pr_run sha1 p cwd (process_init d) (acts ops)) /\
  pr_disk (lg_process s) (cwd ++ [s2b "test.log"]) = Some (NFile (List.concat (lines ops))).
Proof.
  intros sha1 p cwd d ops s (OK & s0 & E0 & ->). fold (log_place cwd).
  cut (spares_log (lg_process (log_run sha1 p cwd s0 ops)) ->
    same_but (log_place cwd) (lg_process (log_run sha1 p cwd s0 ops)) (pr_run sha1 p cwd (process_init d) (acts ops)) /\
  pr_disk (lg_process (log_run sha1 p cwd s0 ops)) (log_place cwd) = Some (NFile (List.concat (lines ops))) /\
  lg_end (log_run sha1 p cwd s0 ops) = lenN (List.concat (lines ops))).
  { intros H S. destruct (H S) as (A & B & _). auto. }
  induction ops as [|o ops IH] using rev_ind; intros S.
  - unfold log_start in E0. cbn [log_run fold_left acts lines flat_map List.concat pr_run].
    assert (X : s0 = {| lg_process := process_init (fs_set d (log_place cwd) (NFile [])); lg_end := 0 |}) by
      (destruct (d (log_place cwd)) as [[|c]|]; congruence).
    rewrite X. cbn [lg_process lg_end process_init pr_disk]. split; [|split; [apply fs_set_same|auto]].
    split; [constructor|]. split; [auto|]. split; [auto|]. intros l N. cbn [pr_disk process_init]. apply set_at. auto.
  - unfold log_run, acts, lines in *. rewrite flat_map_app in OK. rewrite !flat_map_app, concat_app, fold_left_app in *.
    apply Forall_app in OK as [OK OK2]. cbn [fold_left] in *. specialize (IH OK).
    set (s1 := fold_left (log_step sha1 p cwd) ops s0) in *. destruct (IH (spares_back _ _ _ _ _ S)) as (A & B & C). clear IH.
    destruct o as [o|line]; cbn [flat_map app List.concat log_step lg_process lg_end].
    + rewrite !app_nil_r. unfold pr_run. rewrite fold_left_app. cbn [fold_left].
      destruct (act_same sha1 p cwd d (flat_map (fun o => match o with Act o => [o] | Log _ => [] end) ops) (lg_process s1)
        (pr_run sha1 p cwd (process_init d) (flat_map (fun o => match o with Act o => [o] | Log _ => [] end) ops)) o) as [A2 B2].
      { split; auto. } { exact A. } { exact (spares_back _ _ _ s1 (Act o) S). }
      split; [exact A2|]. split; [rewrite B2; exact B|exact C].
    + rewrite B. cbn [lg_process lg_end with_disk pr_disk]. rewrite !app_nil_r, C, write_at_end, fs_set_same.
      split; [|split; [auto|unfold lenN; rewrite app_length; lia]].
      destruct A as (A1 & A2 & A3 & A4). split; [auto|]. split; [auto|]. split; [auto|]. intros l N.
      cbn [with_disk pr_disk]. rewrite set_at by auto. auto.
Qed.
Lemma c77_start : forall cwd d, (log_start cwd d = Panic <-> d (cwd ++ [s2b "test.log"]) = Some NDir) /\
  forall s, log_start cwd d = Ret s ->
    pr_disk (lg_process s) (cwd ++ [s2b "test.log"]) = Some (NFile []) /\
  (forall l, l <> cwd ++ [s2b "test.log"] -> pr_disk (lg_process s) l = d l) /\ pr_torrents (lg_process s) = [].
Proof.
  intros cwd d. unfold log_start. fold (log_place cwd). split.
  - destruct (d (log_place cwd)) as [[|c]|]; split; congruence.
  - intros s H. assert (X : s = {| lg_process := process_init (fs_set d (log_place cwd) (NFile [])); lg_end := 0 |}) by
      (destruct (d (log_place cwd)) as [[|c]|]; congruence).
    rewrite X. cbn. split; [apply fs_set_same|]. split; [|auto]. intros l N. apply set_at. auto.
Qed.

Lemma consists_unique : forall i a b, consists_of i a -> consists_of i b -> a = b.
Proof. intros i a b A B. inversion A; inversion B; congruence. Qed.
Lemma good_sane : forall files f, good_files files -> In f files -> sane_path (f_path f).
Proof. intros files f G I. destruct G as [G _]. rewrite Forall_forall in G. auto. Qed.

Lemma c77_right : forall sha1 p cwd F T d ops s, runs sha1 p cwd d ops s ->
  apart (List.length (pr_torrents (lg_process s))) F T ->
  (forall t, (t < List.length (pr_torrents (lg_process s)))%nat -> disk_ready cwd (F t) d) ->
  told sha1 F T (lg_process s) ->
  (forall t f, (t < List.length (pr_torrents (lg_process s)))%nat -> In f (F t) -> hd [] (f_path f) <> s2b "test.log") ->
  some_collision sha1 T (lg_process s) \/
  forall t x i, nth_error (pr_torrents (lg_process s)) t = Some x -> ta_info (sy_actor x) = Some i ->
    (forall idx, (idx < piece_count (lenN (T t)) (i_piece_length i))%N -> In idx (written x)) ->
    forall k f, nth_error (F t) k = Some f -> (0 < f_length f)%N ->
      pr_disk (lg_process s) (cwd ++ f_path f) = Some (NFile (file_content (T t) (F t) k f)).
Proof.
  intros sha1 p cwd F T d ops s R A D TO H.
  assert (S : spares_log (lg_process s)).
  { intros path (x & i & files & f & I & E & C & If & ->). apply In_nth_error in I as (t & N).
    assert (L : (t < List.length (pr_torrents (lg_process s)))%nat) by (apply nth_error_Some; congruence).
    pose proof (TO t x i N E) as (C2 & _ & _ & _ & G & _). rewrite (consists_unique _ _ _ C C2) in If.
    right. split; [eapply good_sane; eauto|eapply H; eauto]. }
  destruct (c77_apart _ _ _ _ _ _ R S) as [(FT & E1 & E2 & O) _].
  set (s0 := pr_run sha1 p cwd (process_init d) (acts ops)) in *.
  assert (R0 : started sha1 p cwd d (acts ops) s0) by (split; [exact (proj1 R)|reflexivity]).
  assert (LE : List.length (pr_torrents s0) = List.length (pr_torrents (lg_process s))) by (symmetry; eapply f2_length; eauto).
  assert (N0 : forall t y, nth_error (pr_torrents s0) t = Some y -> exists x, nth_error (pr_torrents (lg_process s)) t = Some x /\ same_torrent x y).
  { intros t y N. pose proof (f2_nth _ _ _ t FT) as M. rewrite N in M. destruct (nth_error (pr_torrents (lg_process s)) t) as [x|]; [|contradiction]. eauto. }
  assert (TO0 : told sha1 F T s0).
  { intros t y i N E. destruct (N0 t y N) as (x & NX & (AG & _) & _). apply (TO t x i NX). congruence. }
  destruct (c58_disk sha1 p cwd F T d (acts ops) s0 R0) as [(t & y & i & N & E & r & C)|[K _]]; rewrite ?LE; auto.
  - left. destruct (N0 t y N) as (x & NX & (AG & _ & _ & _ & _ & _ & TR) & _). exists t, x, i. split; [auto|]. split; [congruence|].
    exists r. rewrite TR. auto.
  - right. intros t x i NX E W k f Nf Lf. pose proof (f2_nth _ _ _ t FT) as M. rewrite NX in M.
    destruct (nth_error (pr_torrents s0) t) as [y|] eqn:NY; [|contradiction]. destruct M as ((AG & _ & _ & _ & _ & _ & TR) & WR & _).
    rewrite O.
    + destruct (K t y NY) as (_ & _ & _ & K2). destruct (K2 i) as [_ K3]; [congruence|]. apply K3; auto.
      intros idx L. specialize (W idx L). unfold written in *. rewrite <- TR, <- WR. exact W.
    + intros EL. apply app_inv_head in EL. apply (H t f); [apply nth_error_Some; congruence|eapply nth_error_In; eauto|]. rewrite EL. auto.
Qed.

(** ** Where lines go if a torrent has a file there *)
Lemma file_stays : forall sha1 p cwd s o l c, pr_disk s l = Some (NFile c) -> exists c', pr_disk (pr_step sha1 p cwd s o) l = Some (NFile c').
Proof.
  intros sha1 p cwd s o l c H.
  assert (Same : forall d', d' = pr_disk s -> exists c', d' l = Some (NFile c')) by (intros d' ->; eauto).
  assert (Desc : forall h d', description_change cwd h (pr_disk s) d' -> exists c', d' l = Some (NFile c')).
  { intros h d' C. apply description_kept in C. destruct (C l) as [_ K]. destruct (K c H) as (c' & E & _). eauto. }
  destruct o as [raw full|full|k|k j e|k j connects|t k accept fuel net pid shuffle|t|t i net pid fuel|t]; cbn [pr_step].
  - apply Same. destruct (add_cases p full raw s) as [(h & _ & _ & E)|(_ & _ & E)]; rewrite E; auto.
  - apply Same. destruct (pr_interface s); auto.
  - apply Same. auto.
  - apply Same. auto.
  - apply Same. destruct (nth_error (pr_trackers s) k) as [x|]; [|auto].
    destruct (nth_error (tk_jobs x) j) as [[r|r [|e rest]]|]; auto.
    destruct (is_reachable connects (endpoint e)); [rewrite pr_disk_step by discriminate|]; auto.
  - destruct (nth_error (pr_torrents s) t) as [x|] eqn:EX; [|apply Same; auto].
    destruct (nth_error (sy_mail x) k) as [[]|]; try (apply Same; apply pr_disk_step; discriminate).
    destruct (ta_info (sy_actor x)); try (apply Same; apply pr_disk_step; discriminate).
    destruct (sy_dead x); try (apply Same; apply pr_disk_step; discriminate).
    apply (Desc (ta_info_hash (sy_actor x))).
    assert (M : description_change cwd (ta_info_hash (sy_actor x)) (pr_disk s) (downloads_made cwd (pr_disk s))).
    { intros l0. destruct (downloads_made_change cwd (pr_disk s) l0) as [?|?]; auto. }
    destruct (collect_info accept fuel cwd (pr_disk s) net pid (ta_info_hash (sy_actor x)) ep) as [[found d']| |] eqn:C.
    + rewrite pr_disk_step by discriminate. cbn [pr_disk with_disk]. eapply collect_change; eauto.
    + rewrite pr_disk_step by discriminate. exact M.
    + exact M.
  - apply Same. apply pr_disk_step. discriminate.
  - apply Same. apply pr_disk_step. discriminate.
  - unfold torrent_step. destruct (nth_error (pr_torrents s) t) as [x|] eqn:EX; [|apply Same; auto].
    cbn [sys_step set_disk sy_writer_dead sy_writer sy_disk pr_disk].
    destruct (sy_writer_dead x); [apply Same; auto|]. destruct (sy_writer x) as [|r rest]; [apply Same; auto|].
    assert (G : forall d', d' = write_left p cwd (pr_disk s) (rd_piece r) (rd_idx r) (rd_files r) (rd_piece_length r) -> exists c', d' l = Some (NFile c')).
    { intros d' ->. destruct (write_left_grow p cwd (pr_disk s) (rd_piece r) (rd_idx r) (rd_files r) (rd_piece_length r) l) as [_ K].
      destruct (K c H) as (c' & E & _). eauto. }
    destruct (write p cwd (pr_disk s) (rd_piece r) (rd_idx r) (rd_files r) (rd_piece_length r)) as [d'| |] eqn:WR; cbn [sy_disk].
    + apply G. symmetry. apply write_left_ret. auto.
    + apply G. reflexivity.
    + apply Same. auto.
Qed.
Lemma log_position : forall sha1 p cwd d ops s, runs sha1 p cwd d ops s ->
  (exists c, pr_disk (lg_process s) (log_place cwd) = Some (NFile c)) /\ lg_end s = lenN (List.concat (lines ops)).
Proof.
  intros sha1 p cwd d ops s (_ & s0 & E0 & ->).
  induction ops as [|o ops IH] using rev_ind.
  - unfold log_start in E0. cbn [log_run fold_left].
    assert (X : s0 = {| lg_process := process_init (fs_set d (log_place cwd) (NFile [])); lg_end := 0 |}) by
      (destruct (d (log_place cwd)) as [[|c]|]; congruence).
    rewrite X. cbn [lg_process lg_end process_init pr_disk]. split; [exists []; apply fs_set_same|reflexivity].
  - unfold log_run, lines in *. rewrite flat_map_app, concat_app, fold_left_app. cbn [fold_left].
    destruct IH as [[c C] L]. set (s1 := fold_left (log_step sha1 p cwd) ops s0) in *.
    destruct o as [o|line]; cbn [flat_map app List.concat log_step].
    + cbn [lg_process lg_end]. rewrite app_nil_r. split; [exact (file_stays _ _ _ _ _ _ _ C)|exact L].
    + rewrite C. cbn [lg_process lg_end with_disk pr_disk]. rewrite fs_set_same, app_nil_r, L. split; [eauto|]. unfold lenN. rewrite app_length. lia.
Qed.
Lemma c77_position : forall sha1 p cwd d ops line s s', runs sha1 p cwd d ops s -> runs sha1 p cwd d (ops ++ [Log line]) s' ->
  forall a, a = List.length (List.concat (lines ops)) ->
  exists c c', pr_disk (lg_process s) (cwd ++ [s2b "test.log"]) = Some (NFile c) /\
    pr_disk (lg_process s') (cwd ++ [s2b "test.log"]) = Some (NFile c') /\
    (forall l, l <> cwd ++ [s2b "test.log"] -> pr_disk (lg_process s') l = pr_disk (lg_process s) l) /\
    (forall j, (j < List.length line)%nat -> nth_error c' (a + j) = nth_error line j) /\
    (forall j, (j < List.length c)%nat -> (j < a \/ a + List.length line <= j)%nat -> nth_error c' j = nth_error c j).
Proof.
  intros sha1 p cwd d ops line s s' R R' a A0. subst a. destruct (log_position _ _ _ _ _ _ R) as [[c C] L].
  destruct R as (_ & s0 & E0 & ->). destruct R' as (_ & s0' & E0' & ->). assert (s0' = s0) as -> by congruence.
  unfold log_run in *. rewrite fold_left_app. cbn [fold_left]. set (s1 := fold_left (log_step sha1 p cwd) ops s0) in *.
  exists c, (write_at c (lg_end s1) line). split; [exact C|]. cbn [log_step]. rewrite C. cbn [lg_process with_disk pr_disk].
  split; [apply fs_set_same|]. split; [intros l N; apply set_at; auto|]. rewrite L. unfold lenN. split.
  - intros j J. rewrite write_at_in by (unfold bytes in *; lia). f_equal. lia.
  - intros j J A. apply write_at_out; [exact J|]. unfold bytes in *; lia.
Qed.
