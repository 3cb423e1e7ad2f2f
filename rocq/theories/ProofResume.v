(** ProofResume: proofs for PropResume *)
From Coq Require Import Lia Permutation.
From Verif Require Import Base Utf8 ModelBencode ModelMessages ModelTorrent ModelWriter ModelTracker ModelStream
  ModelPeer ModelActors ModelCache ModelMain ProofBase SpecTorrent ProofTorrent SpecWriter ProofWriter SpecPieces
  SpecPeer ProofPeer SpecSystem ProofSystem SpecCache ProofCache2 SpecMain ProofMain SpecText SpecDisk ProofDisk SpecPlant ProofPlant
  SpecLog ProofLog SpecResume.

Lemma da_set : forall cwd d d' l n, descriptions_alike cwd d d' -> descriptions_alike cwd (fs_set d l n) (fs_set d' l n).
Proof. intros cwd d d' l n H rest. unfold fs_set. destruct (loc_eqb l _); [auto|apply H]. Qed.

Lemma walk_da : forall cwd d d', descriptions_alike cwd d d' ->
  match walk_create d cwd [dot; downloads], walk_create d' cwd [dot; downloads] with
  | Some (d1, _), Some (d2, _) => descriptions_alike cwd d1 d2
  | None, None => True
  | _, _ => False
  end.
Proof.
  intros cwd d d' H. cbn [walk_create].
  change (bytes_eqb dot [] || bytes_eqb dot dot) with true. cbv iota.
  change (bytes_eqb downloads [] || bytes_eqb downloads dot) with false.
  change (bytes_eqb downloads dotdot) with false. cbv iota.
  pose proof (H []) as E. change (s2b "downloads") with downloads in E. rewrite E.
  destruct (d' (cwd ++ [downloads])) as [[|c]|]; [auto|exact I|apply da_set; auto].
Qed.
Lemma made_da : forall cwd d d', descriptions_alike cwd d d' -> descriptions_alike cwd (downloads_made cwd d) (downloads_made cwd d').
Proof.
  intros cwd d d' H. unfold downloads_made. pose proof (walk_da cwd d d' H) as W.
  destruct (walk_create d cwd [dot; downloads]) as [[d1 l1]|], (walk_create d' cwd [dot; downloads]) as [[d2 l2]|]; auto; contradiction.
Qed.
Lemma collect_da : forall accept fuel cwd d d' net pid h ep, descriptions_alike cwd d d' ->
  match collect_info accept fuel cwd d net pid h ep, collect_info accept fuel cwd d' net pid h ep with
  | Ret (r, x), Ret (r', y) => r = r' /\ descriptions_alike cwd x y
  | Panic, Panic => True
  | OutOfFuel, OutOfFuel => True
  | _, _ => False
  end.
Proof.
  intros accept fuel cwd d d' net pid h ep O. unfold collect_info. pose proof (walk_da cwd d d' O) as W.
  destruct (walk_create d cwd [dot; downloads]) as [[d1 l1]|], (walk_create d' cwd [dot; downloads]) as [[d2 l2]|];
    try contradiction; [|exact I].
  assert (EC : d1 (cache_loc cwd h) = d2 (cache_loc cwd h)) by (apply W).
  assert (EF : from_file d1 (cache_loc cwd h) = from_file d2 (cache_loc cwd h)) by (unfold from_file; rewrite EC; auto).
  rewrite EF. destruct (from_file d2 (cache_loc cwd h)) as [[i|e]| |]; cbn [obind]; [auto| |exact I|exact I].
  destruct (get_info fuel net pid h ep) as [[i|e']| |]; cbn [obind]; [|auto..].
  unfold save. rewrite EC. destruct (d2 (cache_loc cwd h)) as [[|c]|]; cbn [obind]; [exact I| |];
    (split; [auto|apply da_set; auto]).
Qed.

(** ** One torrent *)
Lemma sys_agree : forall sha1 p cwd o x y d d', agree x y -> o <> OWrite ->
  agree (sys_step sha1 p cwd (set_disk d x) o) (sys_step sha1 p cwd (set_disk d' y) o) /\
  sy_disk (sys_step sha1 p cwd (set_disk d x) o) = d.
Proof.
  intros sha1 p cwd o x y d d' (A1 & A2 & A3 & A4 & A5 & A6 & A7) NW.
  destruct x as [xa xd xm xq xw xn xr xrd xk xt], y as [ya yd ym yq yw yn yr yrd yk yt].
  cbn [sy_actor sy_dead sy_mail sy_queue sy_working sy_workers sy_trace] in *. subst.
  assert (T : forall a b c d e f g g' h h' i k k', agree (Build_sys a b c d e f g h k i) (Build_sys a b c d e f g' h' k' i)).
  { intros. unfold agree. cbn. auto 20. }
  unfold set_disk. cbn [sy_actor sy_dead sy_mail sy_queue sy_working sy_workers sy_writer sy_writer_dead sy_trace].
  destruct o as [ep|k found shuffle| |k net pid fuel|]; [| | | |congruence];
    cbn [sys_step sy_actor sy_dead sy_mail sy_queue sy_working sy_workers sy_writer sy_writer_dead sy_disk sy_trace].
  - split; [apply T|auto].
  - destruct yd; [split; [apply T|auto]|]. destruct (nth_error ym k) as [m|]; [|split; [apply T|auto]].
    destruct (handle p found shuffle ya m) as [[a es]| |]; (split; [apply T|auto]).
  - destruct yq as [|r rest]; [split; [apply T|auto]|].
    destruct (List.length yw <? yn)%nat; (split; [apply T|auto]).
  - destruct (nth_error yw k) as [r|]; [|split; [apply T|auto]].
    destruct (download sha1 p fuel net pid (rq_endpoint r) (rq_info r) (rq_idx r)) as [[piece|e]| |]; (split; [apply T|auto]).
Qed.
Lemma write_agree : forall sha1 p cwd x d, agree (sys_step sha1 p cwd (set_disk d x) OWrite) x.
Proof.
  intros sha1 p cwd x d. cbn [sys_step set_disk sy_writer_dead sy_writer sy_disk].
  destruct (sy_writer_dead x); [unfold agree; cbn; auto 20|]. destruct (sy_writer x); [unfold agree; cbn; auto 20|].
  destruct (write _ _ _ _ _ _ _); unfold agree; cbn; auto 20.
Qed.
Lemma agree_sym : forall x y, agree x y -> agree y x.
Proof. unfold agree. intros x y (A1 & A2 & A3 & A4 & A5 & A6 & A7). auto 20. Qed.
Lemma agree_trans : forall x y z, agree x y -> agree y z -> agree x z.
Proof. unfold agree. intros x y z (A1 & A2 & A3 & A4 & A5 & A6 & A7) (B1 & B2 & B3 & B4 & B5 & B6 & B7). repeat split; congruence. Qed.

Lemma step_outside : forall sha1 p cwd s s0 t o, same_outside cwd s s0 -> o <> OWrite ->
  same_outside cwd (torrent_step sha1 p cwd s t o) (torrent_step sha1 p cwd s0 t o).
Proof.
  intros sha1 p cwd s s0 t o (F & E1 & E2 & O) NW. unfold torrent_step. pose proof (f2_nth _ _ _ t F) as N.
  destruct (nth_error (pr_torrents s) t) as [x|] eqn:EX, (nth_error (pr_torrents s0) t) as [y|] eqn:EY; try contradiction; [|split; auto].
  destruct (sys_agree sha1 p cwd o x y (pr_disk s) (pr_disk s0) N NW) as [A D1].
  destruct (sys_agree sha1 p cwd o y x (pr_disk s0) (pr_disk s) (agree_sym _ _ N) NW) as [_ D2].
  split; [|split; [auto|split; [auto|]]]; cbn [pr_torrents pr_disk].
  - apply f2_update; auto.
  - rewrite D1, D2. exact O.
Qed.

(** Writing leaves the descriptions alone. *)
Lemma write_region : forall sha1 p cwd d ops s t, started sha1 p cwd d ops s -> leaves_downloads s ->
  descriptions_alike cwd (pr_disk (pr_step sha1 p cwd s (PWrite t))) (pr_disk s).
Proof.
  intros sha1 p cwd d ops s t R LD.
  assert (W : (forall l, pr_disk (pr_step sha1 p cwd s (PWrite t)) l = pr_disk s l) \/
    written_change p cwd s t (pr_disk (pr_step sha1 p cwd s (PWrite t)))).
  { cbn [pr_step]. unfold torrent_step. destruct (nth_error (pr_torrents s) t) as [x|] eqn:EX; [|left; auto].
    cbn [sys_step set_disk sy_writer_dead sy_writer sy_disk pr_disk].
    destruct (sy_writer_dead x); [left; auto|]. destruct (sy_writer x) as [|r rest] eqn:W; [left; auto|].
    pose proof (readies_good _ _ _ _ _ _ R t x EX) as G. destruct (writer_suffix _ _ _ _ _ _ R t x EX) as (done & ET).
    rewrite ET in G. rewrite W in G.
    destruct (ta_info (sy_actor x)) as [i|] eqn:I; [|apply app_eq_nil in G as [_ G]; discriminate].
    destruct G as (n & files & _ & GF & G). apply Forall_app in G as [_ G]. inversion G as [|? ? (F1 & _) _]; subst.
    apply c11_files in GF.
    destruct (write p cwd (pr_disk s) (rd_piece r) (rd_idx r) (rd_files r) (rd_piece_length r)) as [d'| |] eqn:WR; cbn [sy_disk].
    + right. exists x, i, (rd_files r), r. split; [auto|]. split; [auto|]. split; [auto|]. symmetry. apply write_left_ret. auto.
    + right. exists x, i, (rd_files r), r. auto.
    + left. auto. }
  destruct W as [E|(x & i & files & r & X1 & X2 & X3 & X4)]; [intros rest; apply E|].
  assert (SF : forall f, In f files -> some_file s (f_path f)).
  { intros f I. exists x, i, files, f. split; [eapply nth_error_In; eauto|auto]. }
  assert (F : Forall (fun f => sane_path (f_path f)) files) by (apply Forall_forall; intros f I; apply LD, SF, I).
  intros rest. destruct (write_left_changes p cwd (pr_disk s) (rd_piece r) (rd_idx r) files (rd_piece_length r) F (cwd ++ s2b "downloads" :: rest))
    as [E|(path & (f & If & Ef) & q & r0 & B1 & B2 & B3)].
  - rewrite X4, E. auto.
  - exfalso. apply app_inv_head in B2. subst q. apply (proj2 (LD _ (SF f If)) (rest ++ r0)). rewrite Ef, B1. reflexivity.
Qed.

Lemma outside_files : forall cwd s s0 path, same_outside cwd s s0 -> some_file s0 path -> some_file s path.
Proof.
  intros cwd s s0 path (F & _) (x & i & files & f & I & E & R). apply In_nth_error in I as (t & N).
  pose proof (f2_nth _ _ _ t F) as M. rewrite N in M. destruct (nth_error (pr_torrents s) t) as [y|] eqn:EY; [|contradiction].
  destruct M as (A & _). exists y, i, files, f. split; [eapply nth_error_In; eauto|]. rewrite A. auto.
Qed.

Lemma f2_refl_update : forall t x' l x, nth_error l t = Some x -> agree x' x -> Forall2 agree (update_nth t (fun _ => x') l) l.
Proof.
  assert (R : forall l : list sys, Forall2 agree l l) by (induction l; constructor; auto; unfold agree; auto 20).
  induction t as [|t IH]; intros x' [|y l] x N A; try discriminate; cbn [update_nth nth_error] in *.
  - injection N as <-. constructor; auto.
  - constructor; [unfold agree; auto 20|]. eapply IH; eauto.
Qed.
Lemma f2_agree_trans : forall l m n, Forall2 agree l m -> Forall2 agree m n -> Forall2 agree l n.
Proof.
  intros l m n F. revert n. induction F as [|x y l m H F IH]; intros n G; inversion G; subst; constructor; [eapply agree_trans; eauto|auto].
Qed.
Lemma f2_agree_sym : forall l m, Forall2 agree l m -> Forall2 agree m l.
Proof. intros l m F. induction F; constructor; auto. apply agree_sym. auto. Qed.
Lemma outside_trans : forall cwd a b c, same_outside cwd a b -> same_outside cwd b c -> same_outside cwd a c.
Proof.
  intros cwd a b c (A1 & A2 & A3 & A4) (B1 & B2 & B3 & B4). split; [eapply f2_agree_trans; eauto|]. split; [congruence|]. split; [congruence|].
  intros rest. rewrite A4. apply B4.
Qed.
Lemma outside_sym : forall cwd a b, same_outside cwd a b -> same_outside cwd b a.
Proof. intros cwd a b (A1 & A2 & A3 & A4). split; [apply f2_agree_sym; auto|]. split; [auto|]. split; [auto|]. intros rest. auto. Qed.
Lemma write_outside : forall sha1 p cwd d ops s t, started sha1 p cwd d ops s -> leaves_downloads s ->
  same_outside cwd (pr_step sha1 p cwd s (PWrite t)) s.
Proof.
  intros sha1 p cwd d ops s t R LD. pose proof (write_region sha1 p cwd d ops s t R LD) as W.
  split; [|split; [|split; [|exact W]]]; cbn [pr_step]; unfold torrent_step; destruct (nth_error (pr_torrents s) t) as [x|] eqn:EX; auto.
  - cbn [pr_torrents]. eapply f2_refl_update; [eauto|]. apply write_agree.
  - assert (Q : forall l : list sys, Forall2 agree l l) by (induction l; constructor; auto; unfold agree; auto 20). apply Q.
Qed.

Lemma act_outside : forall sha1 p cwd d d0 ops s s0 o, started sha1 p cwd d ops s -> started sha1 p cwd d0 ops s0 ->
  same_outside cwd s s0 -> leaves_downloads s ->
  same_outside cwd (pr_step sha1 p cwd s o) (pr_step sha1 p cwd s0 o).
Proof.
  intros sha1 p cwd d d0 ops s s0 o R R0 B S. pose proof B as (F & E1 & E2 & O).
  destruct o as [raw full|full|k|k j e|k j connects|t k accept fuel net pid shuffle|t|t i net pid fuel|t].
  - cbn [pr_step]. destruct (add_cases p full raw s) as [(h & A & _ & E)|(A & _ & E)], (add_cases p full raw s0) as [(h' & A' & _ & E')|(A' & _ & E')];
      try congruence; rewrite E, E'. assert (h' = h) by congruence. subst h'.
    split; [|split; [|split; [auto|exact O]]]; cbn [pr_torrents pr_interface].
    + apply Forall2_app; [auto|]. constructor; [|constructor]. unfold agree, sys_init. cbn. auto 20.
    + rewrite E1. rewrite (f2_length _ _ _ F). auto.
  - cbn [pr_step]. rewrite E1. destruct (pr_interface s0) as [|r rest]; [auto|]. split; [auto|]. rewrite E2. auto.
  - cbn [pr_step]. split; [auto|]. unfold with_trackers. cbn [pr_interface pr_trackers pr_disk]. rewrite E2. auto.
  - cbn [pr_step]. split; [auto|]. unfold with_trackers. cbn [pr_interface pr_trackers pr_disk]. rewrite E2. auto.
  - cbn [pr_step]. rewrite E2. destruct (nth_error (pr_trackers s0) k) as [x|]; [|auto].
    destruct (nth_error (tk_jobs x) j) as [[r|r [|e rest]]|]; [auto| | |auto].
    + split; [auto|]. unfold with_trackers. cbn [pr_interface pr_trackers pr_disk]. auto.
    + match goal with |- same_outside _ (if _ then torrent_step _ _ _ ?a _ _ else _) (if _ then torrent_step _ _ _ ?b _ _ else _) =>
        assert (B' : same_outside cwd a b) by (split; [auto|]; unfold with_trackers; cbn [pr_interface pr_trackers pr_disk]; auto) end.
      destruct (is_reachable connects (endpoint e)); [|auto]. apply (step_outside sha1 p cwd _ _ (rg_torrent r) (OPeer (endpoint e)) B'). discriminate.
  - cbn [pr_step]. pose proof (f2_nth _ _ _ t F) as N.
    destruct (nth_error (pr_torrents s) t) as [x|] eqn:EX, (nth_error (pr_torrents s0) t) as [y|] eqn:EY; try contradiction; [|auto].
    destruct N as (A1 & A2 & A3 & _). rewrite A1, A2, A3.
    assert (H : same_outside cwd (torrent_step sha1 p cwd s t (OHandle k (Ret None) shuffle))
                 (torrent_step sha1 p cwd s0 t (OHandle k (Ret None) shuffle)))
      by (apply step_outside; auto; discriminate).
    destruct (nth_error (sy_mail y) k) as [[]|]; try exact H. destruct (ta_info (sy_actor y)); [exact H|]. destruct (sy_dead y); [exact H|].
    clear H. pose proof (collect_da accept fuel cwd _ _ net pid (ta_info_hash (sy_actor y)) ep O) as C.
    pose proof (made_da cwd _ _ O) as O2.
    assert (D : forall a b, descriptions_alike cwd a b -> same_outside cwd (with_disk s a) (with_disk s0 b)) by
      (intros a b H; split; [auto|]; unfold with_disk; cbn [pr_interface pr_trackers pr_disk]; auto).
    destruct (collect_info accept fuel cwd (pr_disk s) net pid (ta_info_hash (sy_actor y)) ep) as [[f1 d1]| |],
             (collect_info accept fuel cwd (pr_disk s0) net pid (ta_info_hash (sy_actor y)) ep) as [[f2 d2]| |]; try contradiction.
    + destruct C as (<- & OC). apply step_outside; [auto|discriminate].
    + apply step_outside; [auto|discriminate].
    + auto.
  - cbn [pr_step]. apply step_outside; auto. discriminate.
  - cbn [pr_step]. apply step_outside; auto. discriminate.
  - eapply outside_trans; [eapply write_outside; eauto|]. eapply outside_trans; [exact B|]. apply outside_sym. eapply write_outside; [exact R0|].
    intros path H. apply S. eapply outside_files; eauto.
Qed.

Lemma c80 : forall sha1 p cwd d d' ops s s', started sha1 p cwd d ops s -> started sha1 p cwd d' ops s' ->
  descriptions_alike cwd d d' -> leaves_downloads s -> same_outside cwd s s'.
Proof.
  intros sha1 p cwd d d' ops s s' R R' A LD. revert ops s R s' R' LD. refine (started_ind sha1 p cwd d _ _ _).
  - intros s' [_ ->] _. split; [constructor|]. split; [auto|]. split; [auto|]. exact A.
  - intros ops s o R OK IH s' [FA ->] LD. apply Forall_app in FA as [FA FO].
    assert (E : pr_run sha1 p cwd (process_init d') (ops ++ [o]) = pr_step sha1 p cwd (pr_run sha1 p cwd (process_init d') ops) o)
      by (unfold pr_run; rewrite fold_left_app; reflexivity).
    rewrite E. assert (R0 : started sha1 p cwd d' ops (pr_run sha1 p cwd (process_init d') ops)) by (split; auto).
    assert (LS : leaves_downloads s) by (intros path H; apply LD, some_file_step, H).
    eapply act_outside; eauto.
Qed.

(** ** Every piece comes from a peer *)

Lemma deliveries_app : forall sha1 p cwd a b s,
  deliveries sha1 p cwd s (a ++ b) = deliveries sha1 p cwd s a ++ deliveries sha1 p cwd (sys_run sha1 p cwd s a) b.
Proof.
  intros sha1 p cwd a b. induction a as [|o a IH]; intros s; [reflexivity|]. cbn [app deliveries]. rewrite IH, <- app_assoc. reflexivity.
Qed.
Definition arrived (ms : list tmsg) : list (N * bytes) :=
  flat_map (fun m => match m with PieceDownloadSuccessfull _ piece idx => [(idx, piece)] | _ => [] end) ms.
Definition pairs (rs : list piece_ready) : list (N * bytes) := map (fun r => (rd_idx r, rd_piece r)) rs.
Lemma arrived_app : forall a b, arrived (a ++ b) = arrived a ++ arrived b.
Proof. intros a b. apply flat_map_app. Qed.
Lemma arrived_remove : forall k ms m, nth_error ms k = Some m -> Permutation (arrived ms) (arrived [m] ++ arrived (remove_nth k ms)).
Proof.
  intros k ms m N. rewrite <- arrived_app. cbn [app]. unfold arrived. apply Permutation_flat_map. apply remove_nth_perm. auto.
Qed.
Lemma handle_pairs : forall p found shuffle a m a' es, handle p found shuffle a m = Ret (a', es) -> pairs (readies_of es) = arrived [m].
Proof.
  intros p found shuffle a m a' es H. destruct m as [ep|ep piece idx|ep idx]; cbn [handle] in H.
  - unfold handle_peer_found in H. destruct (ta_info a) as [i|].
    + destruct ((10 <? lenN (ta_peers a ++ [apeer_new ep]))%N && negb (ta_initiated a)); [|injection H as <- <-; reflexivity].
      apply obind_ret in H as (q & _ & H). apply obind_ret in H as ([[q' ini] es'] & HI & H). injection H as <- <-.
      assert (G : forall r k q ini q' ini' es, initial_requests r k shuffle i (ta_peers a ++ [apeer_new ep]) q ini = Ret (q', ini', es) -> readies_of es = []).
      { clear. induction r as [|r IH]; intros k q ini q' ini' es H; cbn [initial_requests] in H; [injection H as <- <- <-; reflexivity|].
        apply obind_ret in H as (e & _ & H). destruct (pool_pop q) as [[n|] q1].
        - apply obind_ret in H as ([[q2 i2] es2] & H2 & H). injection H as <- <- <-. apply IH in H2. exact H2.
        - eapply IH; eauto. }
      rewrite (G _ _ _ _ _ _ _ HI). reflexivity.
    + apply obind_ret in H as (r & _ & H). destruct r as [i|]; [|injection H as <- <-; reflexivity].
      apply obind_ret in H as (t & _ & H). apply obind_ret in H as (c & _ & H). injection H as <- <-. reflexivity.
  - unfold handle_success in H. apply obind_ret in H as (i & _ & H). apply obind_ret in H as (fs & _ & H).
    apply obind_ret in H as (pool & _ & H). destruct (pool_pop pool) as [[n|] q]; injection H as <- <-; reflexivity.
  - unfold handle_failed in H. apply obind_ret in H as (pool & _ & H). apply obind_ret in H as (e & _ & H).
    destruct (pool_pop (pool_insert pool idx)) as [[n|] q].
    + apply obind_ret in H as (i & _ & H). injection H as <- <-. reflexivity.
    + injection H as <- <-. reflexivity.
Qed.

Lemma c80_deliveries : forall sha1 p cwd ih d ops, Forall op_ok ops ->
  let s := sys_run sha1 p cwd (sys_init ih d) ops in
  Permutation (deliveries sha1 p cwd (sys_init ih d) ops) (handed_over s ++ on_its_way s).
Proof.
  intros sha1 p cwd ih d ops F. cbv zeta. induction ops as [|o ops IH] using rev_ind; [constructor|].
  apply Forall_app in F as [F FO]. inversion FO as [|? ? OK _]; subst. specialize (IH F).
  assert (R : reached sha1 p cwd ih d (sys_run sha1 p cwd (sys_init ih d) ops)) by (exists ops; auto).
  rewrite deliveries_app, ProofSystem.run_app. cbn [deliveries]. rewrite app_nil_r.
  change (sys_run sha1 p cwd (sys_run sha1 p cwd (sys_init ih d) ops) [o]) with (sys_step sha1 p cwd (sys_run sha1 p cwd (sys_init ih d) ops) o).
  set (s := sys_run sha1 p cwd (sys_init ih d) ops) in *. rewrite IH. clear IH.
  change (on_its_way ?x) with (arrived (sy_mail x)). change (handed_over ?x) with (pairs (to_writer (sy_trace x))).
  assert (U : Permutation ((pairs (to_writer (sy_trace s)) ++ arrived (sy_mail s)) ++ []) (pairs (to_writer (sy_trace s)) ++ arrived (sy_mail s)))
    by (rewrite app_nil_r; apply Permutation_refl).
  pose proof (reached_step sha1 p cwd ih d s o R OK) as R'.
  destruct o as [ep|k found shuffle| |k net pid fuel|]; cbn [delivery sys_step] in *.
  - cbn [sy_trace sy_mail]. rewrite arrived_app, app_nil_r. cbn [arrived flat_map]. rewrite app_nil_r. apply Permutation_refl.
  - destruct (sy_dead s); [exact U|]. destruct (nth_error (sy_mail s) k) as [m|] eqn:EM; [|exact U].
    pose proof (arrived_remove _ _ _ EM) as AR.
    destruct (handle p found shuffle (sy_actor s) m) as [[a es]| |] eqn:H; [| |exact U]; cbn [sy_trace sy_mail sy_actor sy_dead] in *.
    + rewrite trace_app_writer. unfold pairs. rewrite map_app. fold (pairs (to_writer (sy_trace s))). fold (pairs (readies_of es)).
      rewrite (handle_pairs _ _ _ _ _ _ _ H), app_nil_r, <- app_assoc. apply Permutation_app_head. exact AR.
    + rewrite app_nil_r. apply Permutation_app_head. rewrite AR.
      destruct m as [ep|ep piece idx|ep idx]; [apply Permutation_refl| |apply Permutation_refl]. exfalso.
      assert (NI : ta_info (sy_actor s) <> None).
      { intros E. pose proof (c39 _ _ _ _ _ _ R) as C. rewrite E in C. destruct C as (_ & C & _). unfold in_flight in C.
        apply app_eq_nil in C as [_ C]. apply app_eq_nil in C as [_ C].
        assert (I : In idx (flat_map answer_for (sy_mail s))) by (apply in_flat_map; eexists; split; [eapply nth_error_In; eauto|left; auto]).
        rewrite C in I. destruct I. }
      destruct (ta_info (sy_actor s)) as [i|] eqn:EI; [|congruence].
      pose proof (c44_safe _ _ _ _ _ _ i R' EI) as D. discriminate.
  - destruct (sy_queue s); [exact U|]. destruct (_ <? _)%nat; exact U.
  - destruct (nth_error (sy_working s) k) as [r|]; [|exact U].
    destruct (download sha1 p fuel net pid (rq_endpoint r) (rq_info r) (rq_idx r)) as [[piece|e]| |]; cbn [sy_trace sy_mail]; [| | |exact U];
      rewrite ?arrived_app; cbn [arrived flat_map]; rewrite ?app_nil_r, <- ?app_assoc; apply Permutation_refl.
  - destruct (sy_writer_dead s); [exact U|]. destruct (sy_writer s); [exact U|]. destruct (write _ _ _ _ _ _ _); exact U.
Qed.
