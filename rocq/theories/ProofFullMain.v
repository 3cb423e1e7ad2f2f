(** ProofFullMain: proofs for PropFullMain *)
From Coq Require Import Lia Permutation.
From Verif Require Import Base ModelTorrent ModelWriter ModelPeer ModelTracker ModelActors ModelCache ModelMain ModelFull ModelFullMain ProofBase ProofBencode ProofPeer SpecTorrent ProofTorrent
  SpecWriter ProofWriter SpecSystem ProofSystem SpecMain ProofMain SpecGap ProofGap ProofDisk SpecFull ProofFull SpecFullMain.

Lemma step_v_cases : forall sha1 p cwd s o vs, (exists t, o = PWrite t /\ pr_step_v sha1 p cwd s (o, vs) = torrent_write sha1 p cwd s t vs) \/
  ((forall t, o <> PWrite t) /\ pr_step_v sha1 p cwd s (o, vs) = pr_step sha1 p cwd s o).
Proof. intros sha1 p cwd s o vs. destruct o; try (right; split; [discriminate|reflexivity]). left. eexists. split; reflexivity. Qed.

Lemma started_v_ind : forall sha1 p cwd d (P : list (pop * (nat -> verdict)) -> process -> Prop),
  P [] (process_init d) ->
  (forall ops s o, started_v sha1 p cwd d ops s -> pop_ok (fst o) -> P ops s -> P (ops ++ [o]) (pr_step_v sha1 p cwd s o)) ->
  forall ops s, started_v sha1 p cwd d ops s -> P ops s.
Proof.
  intros sha1 p cwd d P H0 HS ops. induction ops as [|o ops IH] using rev_ind; intros s [F E].
  - subst s. exact H0.
  - unfold pr_run_v in E. rewrite fold_left_app in E. cbn [fold_left] in E. subst s. apply Forall_app in F as [F1 F2]. inversion F2; subst.
    apply HS; [split; [exact F1|reflexivity]|assumption|]. apply IH. split; [exact F1|reflexivity].
Qed.

Lemma write_nth : forall sha1 p cwd s t vs u, nth_error (pr_torrents (torrent_write sha1 p cwd s t vs)) u
  = if (u =? t)%nat then option_map (fun x => sys_step_v sha1 p cwd (set_disk (pr_disk s) x) (OWrite, vs)) (nth_error (pr_torrents s) u)
    else nth_error (pr_torrents s) u.
Proof.
  intros. unfold torrent_write. destruct (nth_error (pr_torrents s) t) as [x|] eqn:E.
  - cbn [pr_torrents]. rewrite nth_update. destruct (Nat.eqb_spec u t) as [->|]; [|reflexivity]. rewrite E. reflexivity.
  - destruct (Nat.eqb_spec u t) as [->|]; [|reflexivity]. rewrite E. reflexivity.
Qed.
Lemma write_length : forall sha1 p cwd s t vs, List.length (pr_torrents (torrent_write sha1 p cwd s t vs)) = List.length (pr_torrents s).
Proof. intros. unfold torrent_write. destruct (nth_error (pr_torrents s) t); [|reflexivity]. cbn [pr_torrents]. apply update_length. Qed.

(** What one step does to one torrent. *)
Lemma cases_v : forall sha1 p cwd s o vs t x', pop_ok o -> nth_error (pr_torrents (pr_step_v sha1 p cwd s (o, vs))) t = Some x' ->
  nth_error (pr_torrents s) t = Some x' \/
  (exists x D o', nth_error (pr_torrents s) t = Some x /\ op_ok o' /\ o' <> OWrite /\ x' = sys_step sha1 p cwd (set_disk D x) o') \/
  (exists raw full h, o = PAdd raw full /\ accepts p raw = Some h /\ t = List.length (pr_torrents s) /\ x' = sys_init h (pr_disk s)) \/
  (exists x, o = PWrite t /\ nth_error (pr_torrents s) t = Some x /\ x' = sys_step_v sha1 p cwd (set_disk (pr_disk s) x) (OWrite, vs)).
Proof.
  intros sha1 p cwd s o vs t x' OK H. destruct (step_v_cases sha1 p cwd s o vs) as [(u & -> & E)|[NW E]]; rewrite E in H.
  - rewrite write_nth in H. destruct (Nat.eqb_spec t u) as [->|]; [|auto]. destruct (nth_error (pr_torrents s) u) as [x|] eqn:EX; [|discriminate].
    injection H as <-. right. right. right. exists x. auto.
  - apply torrent_cases in H; [|exact OK]. destruct H as [[H _]|[(x & D & o' & H & OK' & -> & _ & W)|(raw & full & h & -> & A & -> & ->)]]; [auto| |].
    + right. left. exists x, D, o'. split; [exact H|]. split; [exact OK'|]. split; [|reflexivity]. intros ->. exact (NW _ (W eq_refl)).
    + right. right. left. exists raw, full, h. auto.
Qed.

Lemma alone_v : forall sha1 p cwd d ops s, started_v sha1 p cwd d ops s -> forall t x, nth_error (pr_torrents s) t = Some x ->
  exists s0, reached sha1 p cwd (ta_info_hash (sy_actor x)) d s0 /\ agree s0 x.
Proof.
  intros sha1 p cwd d. refine (started_v_ind sha1 p cwd d _ _ _); [intros [|t] x H; discriminate|].
  intros ops s [o vs] R OK IH t x H. cbn [fst] in OK. apply cases_v in H; [|exact OK].
  destruct H as [H|[(y & D & o' & H & OK' & NW & ->)|[(raw & full & h & -> & A & -> & ->)|(y & -> & H & ->)]]].
  - eauto.
  - destruct (IH _ _ H) as (s0 & R0 & A). rewrite step_hash. cbn [set_disk sy_actor]. assert (A' : agree s0 (set_disk D y)) by exact A.
    exists (sys_step sha1 p cwd s0 o'). split; [apply reached_step; auto|]. apply agree_step; auto.
  - exists (sys_init h d). split; [exists []; split; [constructor|reflexivity]|]. repeat split.
  - destruct (IH _ _ H) as (s0 & R0 & A). destruct (write_alike_v sha1 p cwd (set_disk (pr_disk s) y) vs) as (E1 & E2 & E3 & E4 & E5 & E6 & E7).
    exists s0. rewrite <- E1. split; [exact R0|]. destruct A as (A1 & A2 & A3 & A4 & A5 & A6 & A7).
    unfold agree. rewrite <- E1, <- E2, <- E3, <- E4, <- E5, <- E6, <- E7. cbn [set_disk sy_actor sy_dead sy_mail sy_queue sy_working sy_workers sy_trace]. auto 10.
Qed.

Lemma accepted_v : forall sha1 p cwd d ops s, started_v sha1 p cwd d ops s ->
  List.length (accepted p (map fst ops)) = List.length (pr_torrents s) /\
  forall t x, nth_error (pr_torrents s) t = Some x -> nth_error (accepted p (map fst ops)) t = Some (ta_info_hash (sy_actor x)).
Proof.
  intros sha1 p cwd d. refine (started_v_ind sha1 p cwd d _ _ _); [split; [reflexivity|intros [|t] x H; discriminate]|].
  intros ops s [o vs] R OK [IL IH]. rewrite map_app, accepted_app. cbn [map fst]. cbn [fst] in OK. split.
  - rewrite app_length, IL. destruct (step_v_cases sha1 p cwd s o vs) as [(u & -> & E)|[NW E]]; rewrite E.
    + rewrite write_length. cbn. apply Nat.add_0_r.
    + rewrite torrents_length. reflexivity.
  - intros t x H. apply cases_v in H; [|exact OK].
    destruct H as [H|[(y & D & o' & H & OK' & NW & ->)|[(raw & full & h & -> & A & -> & ->)|(y & -> & H & ->)]]].
    + rewrite nth_error_app1; [auto|]. rewrite IL. apply nth_error_Some. congruence.
    + rewrite nth_error_app1 by (rewrite IL; apply nth_error_Some; congruence). rewrite step_hash. apply IH in H. exact H.
    + rewrite nth_error_app2 by (rewrite IL; lia). rewrite IL, Nat.sub_diag. cbn. rewrite A. reflexivity.
    + rewrite nth_error_app1 by (rewrite IL; apply nth_error_Some; congruence).
      destruct (write_alike_v sha1 p cwd (set_disk (pr_disk s) y) vs) as (E1 & _). rewrite <- E1. apply IH in H. exact H.
Qed.

Lemma c89_alone : forall sha1 p cwd d ops s, started_v sha1 p cwd d ops s -> forall t x, nth_error (pr_torrents s) t = Some x ->
  exists h s0, nth_error (accepted p (map fst ops)) t = Some h /\ reached sha1 p cwd h d s0 /\ agree s0 x.
Proof.
  intros sha1 p cwd d ops s R t x H. destruct (alone_v _ _ _ _ _ _ R t x H) as (s0 & R0 & A). exists (ta_info_hash (sy_actor x)), s0.
  split; [|auto]. apply (proj2 (accepted_v _ _ _ _ _ _ R)). exact H.
Qed.

Lemma c89_all : forall sha1 p cwd ops s, Forall (fun o => forall k, snd o k = VAll) ops -> pr_run_v sha1 p cwd s ops = pr_run sha1 p cwd s (map fst ops).
Proof.
  intros sha1 p cwd. induction ops as [|[o vs] ops IH]; intros s F; [reflexivity|]. inversion F as [|? ? F1 F2]; subst. unfold pr_run_v, pr_run in *. cbn [fold_left map fst].
  rewrite IH by exact F2. f_equal. destruct (step_v_cases sha1 p cwd s o vs) as [(u & -> & E)|[NW E]]; rewrite E; [|reflexivity].
  cbn [pr_step]. unfold torrent_write, torrent_step. destruct (nth_error (pr_torrents s) u) as [x|]; [|reflexivity].
  rewrite (step_all sha1 p cwd _ (OWrite, vs) F1). reflexivity.
Qed.

(** Requests and trackers do not depend on the torrents. *)
Definition same_search (s t : process) : Prop :=
  pr_trackers s = pr_trackers t /\ pr_interface s = pr_interface t /\ List.length (pr_torrents s) = List.length (pr_torrents t).

Lemma search_write : forall sha1 p cwd s t vs, same_search (torrent_write sha1 p cwd s t vs) s.
Proof.
  intros. unfold same_search. rewrite write_length. unfold torrent_write. destruct (nth_error (pr_torrents s) t); auto.
Qed.

Lemma search_step : forall sha1 p cwd s t o, same_search s t -> same_search (pr_step sha1 p cwd s o) (pr_step sha1 p cwd t o).
Proof.
  intros sha1 p cwd s t o (E1 & E2 & E3).
  assert (EL : List.length (pr_torrents (pr_step sha1 p cwd s o)) = List.length (pr_torrents (pr_step sha1 p cwd t o))) by (rewrite !torrents_length; lia).
  pose proof (quiet_step sha1 p cwd s o) as Q1. pose proof (quiet_step sha1 p cwd t o) as Q2. unfold same_search.
  destruct o; try solve [rewrite (proj1 Q1), (proj2 Q1), (proj1 Q2), (proj2 Q2); auto]; clear Q1 Q2;
    (split; [|split; [|exact EL]]); clear EL; cbn [pr_step].
  - destruct (add_cases p full raw s) as [(h & A & _ & ->)|(A & _ & ->)]; destruct (add_cases p full raw t) as [(h' & A' & _ & ->)|(A' & _ & ->)]; auto.
  - destruct (add_cases p full raw s) as [(h & A & _ & ->)|(A & _ & ->)]; destruct (add_cases p full raw t) as [(h' & A' & _ & ->)|(A' & _ & ->)]; try congruence.
    cbn [pr_interface]. assert (h = h') by congruence. subst h'. rewrite E2, E3. reflexivity.
  - rewrite E2. destruct (pr_interface t); [exact E1|]. cbn [pr_trackers]. rewrite E1. reflexivity.
  - rewrite E2. destruct (pr_interface t) eqn:E; [congruence|]. reflexivity.
  - cbn [with_trackers pr_trackers]. rewrite E1. reflexivity.
  - cbn [with_trackers pr_interface]. exact E2.
  - cbn [with_trackers pr_trackers]. rewrite E1. reflexivity.
  - cbn [with_trackers pr_interface]. exact E2.
  - rewrite E1. destruct (nth_error (pr_trackers t) k) as [x|]; [|exact E1]. destruct (nth_error (tk_jobs x) j) as [[r|r [|e rest]]|]; try exact E1.
    + cbn [with_trackers pr_trackers]. reflexivity.
    + destruct (is_reachable connects (endpoint e)); rewrite ?torrent_trackers; reflexivity.
  - rewrite E1. destruct (nth_error (pr_trackers t) k) as [x|]; [|exact E2]. destruct (nth_error (tk_jobs x) j) as [[r|r [|e rest]]|]; try exact E2.
    destruct (is_reachable connects (endpoint e)); rewrite ?torrent_interface; exact E2.
Qed.

Lemma search_run : forall sha1 p cwd ops s t, same_search s t -> same_search (pr_run_v sha1 p cwd s ops) (pr_run sha1 p cwd t (map fst ops)).
Proof.
  intros sha1 p cwd. induction ops as [|[o vs] ops IH]; intros s t E; [exact E|]. unfold pr_run_v, pr_run in *. cbn [fold_left map fst]. apply IH.
  destruct (step_v_cases sha1 p cwd s o vs) as [(u & -> & ->)|[NW ->]]; [|apply search_step; exact E].
  destruct (search_write sha1 p cwd s u vs) as (A1 & A2 & A3). destruct E as (E1 & E2 & E3).
  destruct (quiet_step sha1 p cwd t (PWrite u)) as [B1 B2]. unfold same_search. rewrite A1, A2, A3, B1, B2, torrents_length. cbn. rewrite Nat.add_0_r. auto.
Qed.

Lemma c89_search : forall sha1 p cwd d ops, let s := pr_run_v sha1 p cwd (process_init d) ops in let s0 := pr_run sha1 p cwd (process_init d) (map fst ops) in
  pr_trackers s = pr_trackers s0 /\ pr_interface s = pr_interface s0 /\ List.length (pr_torrents s) = List.length (pr_torrents s0).
Proof. intros sha1 p cwd d ops. apply search_run. repeat split. Qed.

(** What was handed to the writer of a torrent. *)
Lemma readies_v : forall sha1 p cwd d ops s, started_v sha1 p cwd d ops s -> forall t x, nth_error (pr_torrents s) t = Some x ->
  match ta_info (sy_actor x) with
  | None => to_writer (sy_trace x) = []
  | Some i => exists n files, pieces_of p i n /\ get_files i = Ok files /\ Forall (good_ready sha1 i files n) (to_writer (sy_trace x))
  end.
Proof.
  intros sha1 p cwd d ops s R t x H. destruct (alone_v _ _ _ _ _ _ R t x H) as (s0 & R0 & (E1 & _ & _ & _ & _ & _ & E7)).
  apply inv_reached in R0. unfold inv in R0. rewrite E1, E7 in R0. destruct (ta_info (sy_actor x)) as [i|]; [|tauto].
  destruct R0 as (D & W5 & n & fs & q & lost & PO & GF & EP & PM & LW & NI & II & FQ0 & FM0 & FR & FT). exists n, fs. auto.
Qed.

Lemma forward_v : forall sha1 p cwd s o t x, nth_error (pr_torrents s) t = Some x ->
  exists x', nth_error (pr_torrents (pr_step_v sha1 p cwd s o)) t = Some x' /\
    (forall i, ta_info (sy_actor x) = Some i -> ta_info (sy_actor x') = Some i) /\
    (forall plen T, collision sha1 plen T x -> collision sha1 plen T x').
Proof.
  intros sha1 p cwd s [o vs] t x H. destruct (step_v_cases sha1 p cwd s o vs) as [(u & -> & E)|[NW E]]; rewrite E; [|apply torrent_forward; exact H].
  rewrite write_nth, H. destruct (t =? u)%nat; cbn [option_map]; [|exists x; auto].
  destruct (write_alike_v sha1 p cwd (set_disk (pr_disk s) x) vs) as (E1 & _ & _ & _ & _ & _ & E7). eexists. split; [reflexivity|]. rewrite <- E1. split; [auto|].
  intros plen T C. unfold collision, to_writer in *. rewrite <- E7. exact C.
Qed.
Lemma told_back_v : forall sha1 p cwd F T s o, told sha1 F T (pr_step_v sha1 p cwd s o) -> told sha1 F T s.
Proof. intros sha1 p cwd F T s o H t x i E I. destruct (forward_v sha1 p cwd s o t x E) as (x' & E' & G & _). eapply H; eauto. Qed.
Lemma collision_v : forall sha1 p cwd T s o, some_collision sha1 T s -> some_collision sha1 T (pr_step_v sha1 p cwd s o).
Proof. intros sha1 p cwd T s o (t & x & i & E & I & C). destruct (forward_v sha1 p cwd s o t x E) as (x' & E' & G & H). exists t, x', i. auto. Qed.

(** ** The common disk *)
Definition onward (cwd : loc) (files : list file) (T : bytes) (d1 d2 : fs) : Prop :=
  (disk_ready cwd files d1 -> disk_ready cwd files d2) /\ (forall g, holds cwd files T d1 g -> holds cwd files T d2 g) /\ accounted cwd files T d1 d2 /\
  (forall k f, nth_error files k = Some f -> (List.length (text_at d1 (cwd ++ f_path f)) <= List.length (text_at d2 (cwd ++ f_path f)))%nat).

Lemma onward_refl : forall cwd files T d, onward cwd files T d d.
Proof. intros. split; [auto|]. split; [auto|]. split; [apply accounted_refl|auto]. Qed.
Lemma onward_trans : forall cwd files T d1 d2 d3, onward cwd files T d1 d2 -> onward cwd files T d2 d3 -> onward cwd files T d1 d3.
Proof.
  intros cwd files T d1 d2 d3 (A1 & A2 & A3 & A4) (B1 & B2 & B3 & B4). split; [auto|]. split; [auto|]. split; [eapply accounted_trans; eauto|].
  intros k f H. specialize (A4 k f H). specialize (B4 k f H). lia.
Qed.
Lemma onward_same : forall cwd files T d1 d2, (disk_ready cwd files d1 -> disk_ready cwd files d2) -> (forall g, holds cwd files T d1 g -> holds cwd files T d2 g) ->
  (forall f, In f files -> d2 (cwd ++ f_path f) = d1 (cwd ++ f_path f)) -> onward cwd files T d1 d2.
Proof.
  intros cwd files T d1 d2 A B C. split; [exact A|]. split; [exact B|].
  assert (E : forall k f, nth_error files k = Some f -> text_at d2 (cwd ++ f_path f) = text_at d1 (cwd ++ f_path f)).
  { intros k f H. unfold text_at. rewrite C by (eapply nth_error_In; eauto). reflexivity. }
  split; [|intros k f H; rewrite (E k f H); auto]. intros k f j b H HB. rewrite (E k f H) in HB. auto.
Qed.
Lemma onward_only : forall cwd files T d d', good_files files -> outside_downloads files -> only_downloads cwd d d' -> onward cwd files T d d'.
Proof.
  intros cwd files T d d' G O C. apply onward_same; [eapply ready_only; eauto|intros g; eapply holds_only; eauto|].
  intros f I. apply C. eapply outside_not_in; [eauto|eauto|symmetry; apply app_nil_r|]. eapply path_nonempty; eauto.
Qed.
Lemma onward_beside : forall cwd fs gs T d d', good_files gs -> disjoint fs gs -> disk_ready cwd fs d' -> (forall l, unrelated cwd fs l -> d' l = d l) ->
  onward cwd gs T d d'.
Proof.
  intros cwd fs gs T d d' G D R U. apply onward_same; [intros; eapply ready_beside; eauto|intros g; eapply holds_beside; eauto|].
  intros f I. apply U. eapply disjoint_unrelated; eauto. eapply path_nonempty; eauto.
Qed.

Definition disk_good_v (cwd : loc) (F : nat -> list file) (T : nat -> bytes) (n : nat) (d : fs) (ops : list (pop * (nat -> verdict))) (s : process) : Prop :=
  (forall t, (t < n)%nat -> onward cwd (F t) (T t) d (pr_disk s)) /\
  (forall l, (forall t, (t < n)%nat -> unrelated cwd (F t) l) -> ~ in_saved cwd l -> pr_disk s l = d l) /\
  (forall t x, nth_error (pr_torrents s) t = Some x ->
     (exists done, to_writer (sy_trace x) = done ++ sy_writer x) /\
     (spared t ops -> sy_writer_dead x = false /\
        forall i g, ta_info (sy_actor x) = Some i -> In (g / i_piece_length i)%N (written x) -> holds cwd (F t) (T t) (pr_disk s) g)).

Lemma spared_before : forall t ops o, spared t (ops ++ [o]) -> spared t ops.
Proof. intros t ops o H q I. apply H. apply in_or_app. auto. Qed.

Lemma change_v : forall cwd F T n d ops o s s', disk_good_v cwd F T n d ops s ->
  (forall t, (t < n)%nat -> onward cwd (F t) (T t) (pr_disk s) (pr_disk s')) ->
  (forall l, (forall t, (t < n)%nat -> unrelated cwd (F t) l) -> ~ in_saved cwd l -> pr_disk s' l = pr_disk s l) ->
  (List.length (pr_torrents s') <= n)%nat ->
  (forall t x', nth_error (pr_torrents s') t = Some x' ->
    (exists done, to_writer (sy_trace x') = done ++ sy_writer x') /\
    (spared t (ops ++ [o]) -> sy_writer_dead x' = false /\
    (written x' = [] \/ exists x, nth_error (pr_torrents s) t = Some x /\
       (forall i, ta_info (sy_actor x') = Some i -> forall g, In (g / i_piece_length i)%N (written x') ->
         (ta_info (sy_actor x) = Some i /\ In (g / i_piece_length i)%N (written x)) \/ holds cwd (F t) (T t) (pr_disk s') g)))) ->
  disk_good_v cwd F T n d (ops ++ [o]) s'.
Proof.
  intros cwd F T n d ops o s s' (G1 & G2 & G3) R U LN X. split; [|split].
  - intros t L. eapply onward_trans; [apply G1|apply R]; exact L.
  - intros l UL NS. rewrite U; auto.
  - intros t x' E. destruct (X t x' E) as (B & C0). split; [exact B|]. intros SP. destruct (C0 SP) as [A C]. split; [exact A|]. intros i g I W.
    destruct C as [C|(x & EX & C)]; [rewrite C in W; destruct W|]. destruct (C i I g W) as [[I' W']|]; [|auto].
    destruct (R t) as (_ & H & _); [assert (t < List.length (pr_torrents s'))%nat by (apply nth_error_Some; congruence); lia|].
    apply H. destruct (G3 t x EX) as (_ & G). destruct (G (spared_before _ _ _ SP)) as [_ G']. eauto.
Qed.

Lemma good_run_v : forall sha1 p cwd F T n d ops s, started_v sha1 p cwd d ops s ->
  apart n F T -> (forall t, (t < n)%nat -> disk_ready cwd (F t) d) ->
  (List.length (pr_torrents s) <= n)%nat -> told sha1 F T s ->
  some_collision sha1 T s \/ disk_good_v cwd F T n d ops s.
Proof.
  intros sha1 p cwd F T n d ops s R [AG AP] DR. revert ops s R. refine (started_v_ind sha1 p cwd d _ _ _).
  { intros _ _. right. split; [intros; apply onward_refl|]. split; [auto|]. intros t x H. destruct t; discriminate. }
  intros ops s [o vs] R OK IH LN TD. cbn [fst] in OK.
  assert (LN' : (List.length (pr_torrents s) <= List.length (pr_torrents (pr_step_v sha1 p cwd s (o, vs))))%nat).
  { destruct (step_v_cases sha1 p cwd s o vs) as [(u & -> & E)|[NW E]]; rewrite E; [rewrite write_length|rewrite torrents_length]; lia. }
  destruct IH as [C|G]; [lia|eapply told_back_v; eauto|left; apply collision_v; auto|].
  set (s' := pr_step_v sha1 p cwd s (o, vs)) in *.
  assert (Quiet : forall t x', nth_error (pr_torrents s') t = Some x' -> o <> PWrite t ->
    (exists done, to_writer (sy_trace x') = done ++ sy_writer x') /\
    (spared t (ops ++ [(o, vs)]) -> sy_writer_dead x' = false /\
    (written x' = [] \/ exists x, nth_error (pr_torrents s) t = Some x /\
       (forall i, ta_info (sy_actor x') = Some i -> forall g, In (g / i_piece_length i)%N (written x') ->
         (ta_info (sy_actor x) = Some i /\ In (g / i_piece_length i)%N (written x)) \/ holds cwd (F t) (T t) (pr_disk s') g)))).
  { intros t x' H NW. destruct G as (_ & _ & G3). unfold s' in H. apply cases_v in H; [|exact OK].
    destruct H as [H|[(y & D & o' & H & OK' & NO & ->)|[(raw & full & h & -> & A & -> & ->)|(y & Q & _)]]]; [| | |congruence].
    - destruct (G3 t x' H) as (B & A). split; [exact B|]. intros SP. split; [apply A; eapply spared_before; eauto|]. right. exists x'. auto.
    - destruct (G3 t y H) as (B & A).
      destruct (suffix_step sha1 p cwd (set_disk D y) o' NO B) as (E1 & E2 & (done & E3 & E4) & E5).
      split; [exists done; exact E4|]. intros SP. split; [rewrite E1; apply A; eapply spared_before; eauto|].
      destruct (ta_info (sy_actor y)) as [i0|] eqn:I0.
      + right. exists y. split; [exact H|]. intros i EI g W. left.
        assert (EI' : ta_info (sy_actor (sys_step sha1 p cwd (set_disk D y) o')) = Some i0) by (apply info_stable; exact I0).
        rewrite EI' in EI. injection EI as <-. rewrite E5 in W. split; [exact I0|exact W].
      + left. rewrite E5. pose proof (readies_v _ _ _ _ _ _ R t y H) as Z. rewrite I0 in Z. apply written_none. exact Z.
    - split; [exists []; reflexivity|]. intros _. split; [reflexivity|]. left. reflexivity. }
  destruct (step_v_cases sha1 p cwd s o vs) as [(u & -> & ES)|[NW ES]]; fold s' in ES.
  - (* a write *)
    destruct (nth_error (pr_torrents s) u) as [x|] eqn:EX.
    2: { right. unfold torrent_write in ES. rewrite EX in ES. rewrite ES. destruct G as (G1 & G2 & G3). split; [exact G1|]. split; [exact G2|].
         intros t y Ht. destruct (G3 t y Ht) as (A & B). split; [exact A|]. intros SP. apply B. eapply spared_before; eauto. }
    assert (UN : (u < n)%nat) by (assert (u < List.length (pr_torrents s))%nat by (apply nth_error_Some; congruence); lia).
    pose proof (told_back_v _ _ _ _ _ _ _ TD) as TD0.
    assert (CC : (exists i, ta_info (sy_actor x) = Some i /\ collision sha1 (i_piece_length i) (T u) x) \/
      (forall i, ta_info (sy_actor x) = Some i -> forall r, In r (to_writer (sy_trace x)) ->
        sha1 (rd_piece r) = sha1 (torrent_piece (T u) (i_piece_length i) (rd_idx r)) -> rd_piece r = torrent_piece (T u) (i_piece_length i) (rd_idx r))).
    { destruct (ta_info (sy_actor x)) as [i|]; [|right; discriminate].
      destruct (no_collision sha1 (i_piece_length i) (T u) x) as [C|NC]; [left; eauto|]. right. intros j E. injection E as <-. auto. }
    destruct CC as [(i & EI & C)|NC]; [left; unfold s'; apply collision_v; exists u, x, i; auto|]. right.
    pose proof G as (G1 & G2 & G3). destruct (G3 u x EX) as ((done & ED) & SPX).
    pose proof (proj1 (G1 u UN) (DR u UN)) as RU.
    set (y := set_disk (pr_disk s) x) in *. set (x1 := sys_step_v sha1 p cwd y (OWrite, vs)) in *.
    assert (ED1 : pr_disk s' = sy_disk x1) by (rewrite ES; unfold torrent_write; rewrite EX; reflexivity).
    assert (NTH : forall t z, nth_error (pr_torrents s') t = Some z -> t = u -> z = x1).
    { intros t z H ->. rewrite ES, write_nth, Nat.eqb_refl, EX in H. injection H as <-. reflexivity. }
    (* an idle writer changes nothing *)
    destruct (orb (sy_writer_dead x) (match sy_writer x with [] => true | _ => false end)) eqn:IDLE.
    { assert (X1 : x1 = y).
      { unfold x1. apply write_idle. apply Bool.orb_true_iff in IDLE as [I|I]; [left; exact I|right]. change (sy_writer x = []). destruct (sy_writer x); [reflexivity|discriminate]. }
      assert (SD : pr_disk s' = pr_disk s) by (rewrite ED1, X1; reflexivity).
      eapply change_v; [exact G|intros t L; rewrite SD; apply onward_refl|intros; rewrite SD; reflexivity|exact LN|].
      intros t z H. destruct (Nat.eq_dec t u) as [E|NE]; [|apply Quiet; [exact H|congruence]].
      rewrite (NTH t z H E), X1. subst t. split; [exists done; exact ED|]. intros SP. split; [apply SPX; eapply spared_before; eauto|]. right. exists x. auto. }
    apply Bool.orb_false_iff in IDLE as [WD NE]. destruct (sy_writer x) as [|r rest] eqn:EW; [discriminate|]. clear NE.
    pose proof (readies_v _ _ _ _ _ _ R u x EX) as RG.
    destruct (ta_info (sy_actor x)) as [i|] eqn:EI; [|rewrite RG in ED; destruct done; discriminate].
    destruct RG as (np & fs & PO & GF & FR).
    assert (DE : describes sha1 i (F u) (T u)) by (eapply TD0; eauto).
    pose proof (describes_count sha1 p i (F u) (T u) np DE PO) as EN.
    assert (DE' := DE). destruct DE' as (GF' & TL & L64 & PP & GD & HS). apply c11_files in GF'.
    assert (fs = F u) by congruence. subst fs.
    assert (IR : In r (to_writer (sy_trace x))) by (rewrite ED; apply in_or_app; right; left; auto).
    rewrite Forall_forall in FR. destruct (FR r IR) as (F1 & F2 & F3 & F4).
    assert (RP : rd_piece r = torrent_piece (T u) (i_piece_length i) (rd_idx r)).
    { apply (NC i); [auto|auto|]. rewrite F4. apply HS. subst np. auto. }
    subst np.
    destruct (write_step sha1 p cwd y vs r rest WD EW) as (Y1 & Y2 & Y3). fold x1 in Y1, Y2, Y3. change (sy_disk y) with (pr_disk s) in Y3.
    destruct (write_alike_v sha1 p cwd y vs) as (Y4 & _). fold x1 in Y4.
    rewrite RP, F1, F2 in Y3. destruct (writers_right p (F u) (T u) (i_piece_length i) (rd_idx r) TL L64 PP F3) as (ws & GW & _).
    assert (INT : interrupted p cwd (F u) (i_piece_length i) (T u) (pr_disk s) (pr_disk s')).
    { rewrite ED1, Y3. unfold try_write. rewrite GW. eapply try_files_both; eauto. }
    destruct (c26_ready p cwd (F u) (i_piece_length i) (T u) _ _ TL L64 PP GD RU INT) as (I1 & I2 & I3).
    destruct (gap_interrupted p cwd (F u) (i_piece_length i) (T u) _ _ TL L64 PP GD INT) as (I4 & I5).
    eapply change_v; [exact G| | |exact LN|].
    + intros t L. destruct (AP u t UN L) as [[E1 E2]|DJ].
      * rewrite <- E1, <- E2. split; [auto|]. split; [auto|]. split; [exact I4|exact I5].
      * destruct (AG t L) as [GT _]. eapply onward_beside; eauto.
    + intros l UL _. apply I3. auto.
    + intros t z H. destruct (Nat.eq_dec t u) as [E|NE]; [|apply Quiet; [exact H|congruence]].
      rewrite (NTH t z H E). subst t. clear z H.
      assert (ED' : to_writer (sy_trace x1) = (done ++ [r]) ++ sy_writer x1) by (rewrite Y1, Y2; change (sy_trace y) with (sy_trace x); rewrite ED, <- app_assoc; reflexivity).
      split; [exists (done ++ [r]); exact ED'|]. intros SP.
      assert (VA : forall k, vs k = VAll) by (intros k; apply (SP (PWrite u, vs)); [apply in_or_app; right; left; reflexivity|reflexivity]).
      destruct (write_piece_right p cwd (F u) (i_piece_length i) (T u) (rd_idx r) (pr_disk s) TL L64 PP GD RU F3) as (d2 & W2 & DR2 & H2 & U2 & _).
      assert (X1 : x1 = sys_step sha1 p cwd y OWrite) by (apply (step_all sha1 p cwd y (OWrite, vs)); exact VA).
      cbn [sys_step] in X1. unfold y in X1. cbn [set_disk sy_writer_dead sy_writer sy_disk sy_actor sy_dead sy_mail sy_queue sy_working sy_workers sy_trace] in X1.
      rewrite WD, EW, RP, F1, F2, W2 in X1.
      assert (DD : pr_disk s' = d2) by (rewrite ED1, X1; reflexivity).
      split; [rewrite X1; reflexivity|]. right. exists x. split; [exact EX|]. intros j EJ g W.
      rewrite <- Y4 in EJ. change (sy_actor y) with (sy_actor x) in EJ. assert (j = i) by congruence. subst j.
      assert (EWx : written x = map rd_idx done) by (apply written_prefix; rewrite EW; exact ED).
      rewrite (written_prefix _ _ ED') in W. rewrite map_app in W. apply in_app_or in W as [W|W].
      * left. split; [exact EI|]. rewrite EWx. exact W.
      * right. rewrite DD. apply H2. right. apply piece_of_byte; [exact PP|]. destruct W as [W|[]]. auto.
  - right. destruct (disk_cases sha1 p cwd s o) as [(u & E)|[_ OD]]; [destruct (NW u E)|]. rewrite <- ES in OD.
    eapply change_v; [exact G| | |exact LN|].
    + intros t L. destruct (AG t L). eapply onward_only; eauto.
    + intros l _ NS. apply OD. exact NS.
    + intros t z H. apply Quiet; [exact H|apply NW].
Qed.

Lemma c89_disk : forall sha1 p cwd F T d ops s, started_v sha1 p cwd d ops s ->
  apart (List.length (pr_torrents s)) F T -> (forall t, (t < List.length (pr_torrents s))%nat -> disk_ready cwd (F t) d) ->
  told sha1 F T s ->
  some_collision sha1 T s \/
  ((forall t x, nth_error (pr_torrents s) t = Some x ->
     disk_ready cwd (F t) (pr_disk s) /\ accounted cwd (F t) (T t) d (pr_disk s) /\
     (forall g, holds cwd (F t) (T t) d g -> holds cwd (F t) (T t) (pr_disk s) g) /\
     (spared t ops -> sy_writer_dead x = false /\
       forall i, ta_info (sy_actor x) = Some i ->
       (forall g, In (g / i_piece_length i)%N (written x) -> holds cwd (F t) (T t) (pr_disk s) g) /\
       ((forall idx, (idx < piece_count (lenN (T t)) (i_piece_length i))%N -> In idx (written x)) ->
         forall k f, nth_error (F t) k = Some f -> (0 < f_length f)%N ->
           pr_disk s (cwd ++ f_path f) = Some (NFile (file_content (T t) (F t) k f))))) /\
   (forall l, (forall t, (t < List.length (pr_torrents s))%nat -> unrelated cwd (F t) l) -> ~ in_saved cwd l -> pr_disk s l = d l)).
Proof.
  intros sha1 p cwd F T d ops s R AP DR TD.
  destruct (good_run_v _ _ _ _ _ _ _ _ _ R AP DR (le_n _) TD) as [C|(G1 & G2 & G3)]; [auto|]. right. split; [|exact G2].
  intros t x H. assert (L : (t < List.length (pr_torrents s))%nat) by (apply nth_error_Some; congruence).
  destruct (G1 t L) as (O1 & O2 & O3 & _). destruct (G3 t x H) as (_ & SP). pose proof (O1 (DR t L)) as R1.
  split; [exact R1|]. split; [exact O3|]. split; [exact O2|]. intros S0. destruct (SP S0) as [W HW]. split; [exact W|].
  intros i EI. split; [eauto|]. intros ALL k f Hk Lf. destruct (TD t x i H EI) as (GF' & TL & L64 & PP & GD & HS).
  apply all_held; auto. intros g Hg. apply (HW i); [exact EI|]. apply ALL. apply index_in_range; auto.
Qed.

(** ** The same execution on a disk that takes everything *)
Definition same_saved (cwd : loc) (d1 d2 : fs) : Prop := forall l, in_saved cwd l -> d1 l = d2 l.

Lemma saved_set : forall cwd d1 d2 l n, same_saved cwd d1 d2 -> same_saved cwd (fs_set d1 l n) (fs_set d2 l n).
Proof.
  intros cwd d1 d2 l n H l' I. unfold fs_set. destruct (loc_eqb _ _); [reflexivity|]. auto.
Qed.
Lemma saved_dir : forall cwd, in_saved cwd (cwd ++ [downloads]).
Proof. intros cwd. exists []. now rewrite app_nil_r. Qed.
Lemma saved_cache : forall cwd ih, in_saved cwd (cache_loc cwd ih).
Proof. intros cwd ih. exists [encode_binary ih]. unfold cache_loc. rewrite <- app_assoc. reflexivity. Qed.

Lemma walk_same : forall cwd d1 d2, same_saved cwd d1 d2 ->
  match walk_create d1 cwd [dot; downloads], walk_create d2 cwd [dot; downloads] with
  | Some (e1, l1), Some (e2, l2) => same_saved cwd e1 e2
  | None, None => True
  | _, _ => False
  end.
Proof.
  intros cwd d1 d2 H. cbn [walk_create]. change (bytes_eqb dot [] || bytes_eqb dot dot) with true. cbv iota.
  change (bytes_eqb downloads [] || bytes_eqb downloads dot) with false. change (bytes_eqb downloads dotdot) with false. cbv iota zeta.
  rewrite <- (H _ (saved_dir cwd)). destruct (d1 (cwd ++ [downloads])) as [[|c]|]; auto. apply saved_set. exact H.
Qed.
Lemma made_same : forall cwd d1 d2, same_saved cwd d1 d2 -> same_saved cwd (downloads_made cwd d1) (downloads_made cwd d2).
Proof.
  intros cwd d1 d2 H. unfold downloads_made. pose proof (walk_same cwd d1 d2 H) as W.
  destruct (walk_create d1 cwd [dot; downloads]) as [[e1 l1]|], (walk_create d2 cwd [dot; downloads]) as [[e2 l2]|]; auto; contradiction.
Qed.

Lemma collect_same : forall accept fuel cwd d1 d2 net pid ih ep, same_saved cwd d1 d2 ->
  match collect_info accept fuel cwd d1 net pid ih ep, collect_info accept fuel cwd d2 net pid ih ep with
  | Ret (f1, e1), Ret (f2, e2) => f1 = f2 /\ same_saved cwd e1 e2
  | Panic, Panic => True
  | OutOfFuel, OutOfFuel => True
  | _, _ => False
  end.
Proof.
  intros accept fuel cwd d1 d2 net pid ih ep H. unfold collect_info. pose proof (walk_same cwd d1 d2 H) as W.
  destruct (walk_create d1 cwd [dot; downloads]) as [[e1 l1]|], (walk_create d2 cwd [dot; downloads]) as [[e2 l2]|]; auto; try contradiction.
  assert (E : from_file e2 (cache_loc cwd ih) = from_file e1 (cache_loc cwd ih)) by (unfold from_file; rewrite (W _ (saved_cache cwd ih)); reflexivity).
  cbv zeta. rewrite E. destruct (from_file e1 (cache_loc cwd ih)) as [[i|x]| |]; cbn [obind]; auto.
  destruct (get_info fuel net pid ih ep) as [[i|y]| |]; cbn [obind]; auto.
  unfold save. rewrite (W _ (saved_cache cwd ih)). destruct (e2 (cache_loc cwd ih)) as [[|c]|]; cbn [obind]; auto; split; auto; apply saved_set; exact W.
Qed.

Lemma agree_refl : forall x, agree x x.
Proof. repeat split. Qed.
Lemma agree_sym : forall x y, agree x y -> agree y x.
Proof. intros x y (A1 & A2 & A3 & A4 & A5 & A6 & A7). unfold agree. auto 10. Qed.

Definition twins (cwd : loc) (s t : process) : Prop :=
  same_search s t /\ Forall2 agree (pr_torrents s) (pr_torrents t) /\ same_saved cwd (pr_disk s) (pr_disk t).

Lemma forall2_nth : forall (A : Type) (R : A -> A -> Prop) l m k, Forall2 R l m ->
  match nth_error l k, nth_error m k with Some x, Some y => R x y | None, None => True | _, _ => False end.
Proof. intros A R l m k H. revert k. induction H as [|x y l m H F IH]; intros [|k]; cbn; auto. apply IH. Qed.
Lemma forall2_update : forall (A : Type) (R : A -> A -> Prop) l m k (f g : A -> A), Forall2 R l m ->
  (forall x y, nth_error l k = Some x -> nth_error m k = Some y -> R (f x) (g y)) -> Forall2 R (update_nth k f l) (update_nth k g m).
Proof.
  intros A R l m k f g H. revert k. induction H as [|x y l m H F IH]; intros [|k] X; cbn [update_nth]; constructor; auto. 
Qed.

Lemma twins_torrent : forall sha1 p cwd s t u o, o <> OWrite -> twins cwd s t ->
  twins cwd (torrent_step sha1 p cwd s u o) (torrent_step sha1 p cwd t u o).
Proof.
  intros sha1 p cwd s t u o N ((E1 & E2 & E3) & F & D). split; [|split].
  - unfold same_search. rewrite !torrent_trackers, !torrent_interface, !torrent_length. auto.
  - pose proof (forall2_nth _ _ _ _ u F) as X. unfold torrent_step.
    destruct (nth_error (pr_torrents s) u) as [x|] eqn:EX, (nth_error (pr_torrents t) u) as [y|] eqn:EY; try contradiction; auto. cbn [pr_torrents].
    apply forall2_update; [exact F|]. intros _ _ _ _. apply agree_step; [exact X|exact N].
  - rewrite !pr_disk_step by exact N. exact D.
Qed.
Lemma twins_disk : forall cwd s t d1 d2, twins cwd s t -> same_saved cwd d1 d2 -> twins cwd (with_disk s d1) (with_disk t d2).
Proof. intros cwd s t d1 d2 (E & F & D) H. split; [exact E|]. split; [exact F|exact H]. Qed.
Lemma twins_trackers : forall cwd s t l, twins cwd s t -> twins cwd (with_trackers s l) (with_trackers t l).
Proof. intros cwd s t l ((E1 & E2 & E3) & F & D). split; [|split; assumption]. split; [reflexivity|]. split; assumption. Qed.

Lemma twins_step : forall sha1 p cwd s t o, (forall u, o <> PWrite u) -> twins cwd s t -> twins cwd (pr_step sha1 p cwd s o) (pr_step sha1 p cwd t o).
Proof.
  intros sha1 p cwd s t o NW TW. pose proof TW as (E & F & D). pose proof (search_step sha1 p cwd s t o E) as E'. destruct E as (E1 & E2 & E3).
  destruct o; try (destruct (NW t0 eq_refl)).
  - split; [exact E'|]. clear E'. cbn [pr_step].
    destruct (add_cases p full raw s) as [(h & A & _ & ->)|(A & _ & ->)]; destruct (add_cases p full raw t) as [(h' & A' & _ & ->)|(A' & _ & ->)]; try congruence; [|auto].
    assert (h = h') by congruence. subst h'. cbn [pr_torrents pr_disk]. split; [|exact D]. apply Forall2_app; [exact F|]. constructor; [repeat split|constructor].
  - split; [exact E'|]. cbn [pr_step]. destruct (pr_interface s), (pr_interface t); auto.
  - split; [exact E'|]. auto.
  - split; [exact E'|]. auto.
  - cbn [pr_step]. rewrite E1. destruct (nth_error (pr_trackers t) k) as [x|]; [|exact TW].
    destruct (nth_error (tk_jobs x) j) as [[r|r [|e rest]]|]; try exact TW; [apply twins_trackers; exact TW|].
    destruct (is_reachable connects (endpoint e)); [|apply twins_trackers; exact TW]. apply twins_torrent; [discriminate|]. apply twins_trackers. exact TW.
  - clear E'. cbn [pr_step]. pose proof (forall2_nth _ _ _ _ t0 F) as X.
    destruct (nth_error (pr_torrents s) t0) as [x|] eqn:EX, (nth_error (pr_torrents t) t0) as [y|] eqn:EY; try contradiction; [|exact TW].
    destruct X as (X1 & X2 & X3 & _). rewrite X1, X2, X3.
    destruct (nth_error (sy_mail y) k) as [[]|]; try (apply twins_torrent; [discriminate|exact TW]).
    destruct (ta_info (sy_actor y)); try (apply twins_torrent; [discriminate|exact TW]).
    destruct (sy_dead y); try (apply twins_torrent; [discriminate|exact TW]).
    pose proof (collect_same accept fuel cwd (pr_disk s) (pr_disk t) net pid (ta_info_hash (sy_actor y)) ep D) as C.
    destruct (collect_info accept fuel cwd (pr_disk s) net pid (ta_info_hash (sy_actor y)) ep) as [[f1 e1]| |];
      destruct (collect_info accept fuel cwd (pr_disk t) net pid (ta_info_hash (sy_actor y)) ep) as [[f2 e2]| |]; try contradiction.
    + destruct C as [-> C]. apply twins_torrent; [discriminate|]. apply twins_disk; assumption.
    + apply twins_torrent; [discriminate|]. apply twins_disk; [exact TW|]. apply made_same. exact D.
    + apply twins_disk; [exact TW|]. apply made_same. exact D.
  - cbn [pr_step]. apply twins_torrent; [discriminate|exact TW].
  - cbn [pr_step]. apply twins_torrent; [discriminate|exact TW].
Qed.

(** Writes leave the saved descriptions alone. *)
Lemma saved_unrelated : forall cwd files l, outside_downloads files -> in_saved cwd l -> unrelated cwd files l.
Proof. intros cwd files l O I f q r F E NQ ->. exact (outside_not_in cwd files f q r O F E NQ I). Qed.

Lemma write_saved : forall sha1 p cwd F T n d ops s u vs, started_v sha1 p cwd d ops s ->
  apart n F T -> (forall t, (t < n)%nat -> disk_ready cwd (F t) d) -> (List.length (pr_torrents s) <= n)%nat -> told sha1 F T s ->
  some_collision sha1 T s \/ same_saved cwd (pr_disk (torrent_write sha1 p cwd s u vs)) (pr_disk s).
Proof.
  intros sha1 p cwd F T n d ops s u vs R AP DR LN TD. destruct (good_run_v _ _ _ _ _ _ _ _ _ R AP DR LN TD) as [C|(G1 & G2 & G3)]; [auto|].
  unfold torrent_write. destruct (nth_error (pr_torrents s) u) as [x|] eqn:EX; [|right; intros l _; reflexivity]. cbn [pr_disk].
  assert (UN : (u < n)%nat) by (assert (u < List.length (pr_torrents s))%nat by (apply nth_error_Some; congruence); lia).
  destruct (G3 u x EX) as ((done & ED) & _). pose proof (proj1 (G1 u UN) (DR u UN)) as RU. destruct AP as [AG _]. destruct (AG u UN) as [GT OD].
  set (y := set_disk (pr_disk s) x).
  destruct (orb (sy_writer_dead x) (match sy_writer x with [] => true | _ => false end)) eqn:IDLE.
  { right. rewrite (write_idle sha1 p cwd y vs); [intros l _; reflexivity|]. apply Bool.orb_true_iff in IDLE as [I|I]; [left; exact I|right].
    change (sy_writer x = []). destruct (sy_writer x); [reflexivity|discriminate]. }
  apply Bool.orb_false_iff in IDLE as [WD NE]. destruct (sy_writer x) as [|r rest] eqn:EW; [discriminate|]. clear NE.
  pose proof (readies_v _ _ _ _ _ _ R u x EX) as RG. destruct (ta_info (sy_actor x)) as [i|] eqn:EI; [|rewrite RG in ED; destruct done; discriminate].
  destruct RG as (np & fs & PO & GF & FR). assert (DE : describes sha1 i (F u) (T u)) by (eapply TD; eauto).
  pose proof (describes_count sha1 p i (F u) (T u) np DE PO) as EN. destruct DE as (GF' & TL & L64 & PP & GD & HS). apply c11_files in GF'.
  assert (fs = F u) by congruence. subst fs.
  assert (IR : In r (to_writer (sy_trace x))) by (rewrite ED; apply in_or_app; right; left; auto).
  rewrite Forall_forall in FR. destruct (FR r IR) as (F1 & F2 & F3 & F4).
  destruct (no_collision sha1 (i_piece_length i) (T u) x) as [C|NC]; [left; exists u, x, i; auto|]. right.
  assert (RP : rd_piece r = torrent_piece (T u) (i_piece_length i) (rd_idx r)) by (apply NC; [exact IR|]; rewrite F4; apply HS; subst np; exact F3).
  subst np. destruct (write_step sha1 p cwd y vs r rest WD EW) as (_ & _ & Y3). change (sy_disk y) with (pr_disk s) in Y3. rewrite RP, F1, F2 in Y3.
  destruct (writers_right p (F u) (T u) (i_piece_length i) (rd_idx r) TL L64 PP F3) as (ws & GW & _).
  assert (INT : interrupted p cwd (F u) (i_piece_length i) (T u) (pr_disk s) (sy_disk (sys_step_v sha1 p cwd y (OWrite, vs)))).
  { rewrite Y3. unfold try_write. rewrite GW. eapply try_files_both; eauto. }
  destruct (c26_ready p cwd (F u) (i_piece_length i) (T u) _ _ TL L64 PP GD RU INT) as (_ & _ & I3).
  intros l I. apply I3. eapply saved_unrelated; eauto.
Qed.

Lemma twins_write : forall sha1 p cwd s t u vs ws, twins cwd s t ->
  same_saved cwd (pr_disk (torrent_write sha1 p cwd s u vs)) (pr_disk s) -> same_saved cwd (pr_disk (torrent_write sha1 p cwd t u ws)) (pr_disk t) ->
  twins cwd (torrent_write sha1 p cwd s u vs) (torrent_write sha1 p cwd t u ws).
Proof.
  intros sha1 p cwd s t u vs ws ((E1 & E2 & E3) & F & D) S1 S2. split; [|split].
  - destruct (search_write sha1 p cwd s u vs) as (A1 & A2 & A3). destruct (search_write sha1 p cwd t u ws) as (B1 & B2 & B3). unfold same_search. rewrite A1, A2, A3, B1, B2, B3. auto.
  - pose proof (forall2_nth _ _ _ _ u F) as X. unfold torrent_write.
    destruct (nth_error (pr_torrents s) u) as [x|] eqn:EX, (nth_error (pr_torrents t) u) as [y|] eqn:EY; try contradiction; auto. cbn [pr_torrents].
    apply forall2_update; [exact F|]. intros _ _ _ _.
    destruct (write_alike_v sha1 p cwd (set_disk (pr_disk s) x) vs) as (P1 & P2 & P3 & P4 & P5 & P6 & P7).
    destruct (write_alike_v sha1 p cwd (set_disk (pr_disk t) y) ws) as (Q1 & Q2 & Q3 & Q4 & Q5 & Q6 & Q7).
    unfold agree. rewrite <- P1, <- P2, <- P3, <- P4, <- P5, <- P6, <- P7, <- Q1, <- Q2, <- Q3, <- Q4, <- Q5, <- Q6, <- Q7. exact X.
  - intros l I. rewrite (S1 l I), (S2 l I). apply D. exact I.
Qed.

Lemma twins_told : forall sha1 cwd F T s t, twins cwd s t -> told sha1 F T s -> told sha1 F T t.
Proof.
  intros sha1 cwd F T s t (_ & X & _) H u y i E I. pose proof (forall2_nth _ _ _ _ u X) as A. rewrite E in A.
  destruct (nth_error (pr_torrents s) u) as [x|] eqn:EX; [|contradiction]. destruct A as (A1 & _). apply (H u x i EX). congruence.
Qed.
Lemma twins_collision : forall sha1 cwd T s t, twins cwd s t -> some_collision sha1 T t -> some_collision sha1 T s.
Proof.
  intros sha1 cwd T s t (_ & X & _) (u & y & i & E & I & C). pose proof (forall2_nth _ _ _ _ u X) as A. rewrite E in A.
  destruct (nth_error (pr_torrents s) u) as [x|] eqn:EX; [|contradiction]. destruct A as (A1 & _ & _ & _ & _ & _ & A7). exists u, x, i.
  split; [exact EX|]. split; [congruence|]. unfold collision, to_writer in *. rewrite A7. exact C.
Qed.

Definition taken (ops : list (pop * (nat -> verdict))) : list (pop * (nat -> verdict)) := map (fun o => (fst o, fun _ => VAll)) ops.

Lemma started_taken : forall sha1 p cwd d ops, Forall (fun o => pop_ok (fst o)) ops ->
  started_v sha1 p cwd d (taken ops) (pr_run sha1 p cwd (process_init d) (map fst ops)).
Proof.
  intros sha1 p cwd d ops F. split; [unfold taken; apply Forall_map; exact F|]. rewrite c89_all by (apply Forall_map, Forall_forall; auto).
  unfold taken. rewrite map_map. reflexivity.
Qed.

Lemma twins_run : forall sha1 p cwd F T n d ops s, started_v sha1 p cwd d ops s ->
  apart n F T -> (forall t, (t < n)%nat -> disk_ready cwd (F t) d) -> (List.length (pr_torrents s) <= n)%nat -> told sha1 F T s ->
  some_collision sha1 T s \/ twins cwd s (pr_run sha1 p cwd (process_init d) (map fst ops)).
Proof.
  intros sha1 p cwd F T n d ops s R AP DR. revert ops s R. refine (started_v_ind sha1 p cwd d _ _ _).
  { intros _ _. right. split; [repeat split|]. split; [constructor|intros l _; reflexivity]. }
  intros ops s [o vs] R OK IH LN TD. cbn [fst] in OK.
  assert (LN' : (List.length (pr_torrents s) <= List.length (pr_torrents (pr_step_v sha1 p cwd s (o, vs))))%nat).
  { destruct (step_v_cases sha1 p cwd s o vs) as [(u & -> & E)|[NW E]]; rewrite E; [rewrite write_length|rewrite torrents_length]; lia. }
  pose proof (told_back_v _ _ _ _ _ _ _ TD) as TD0. assert (LN0 : (List.length (pr_torrents s) <= n)%nat) by lia.
  destruct (IH LN0 TD0) as [C|TW]; [left; apply collision_v; exact C|].
  rewrite map_app. cbn [map fst]. unfold pr_run at 1. rewrite fold_left_app. cbn [fold_left]. fold (pr_run sha1 p cwd (process_init d) (map fst ops)).
  set (s0 := pr_run sha1 p cwd (process_init d) (map fst ops)) in *.
  destruct (step_v_cases sha1 p cwd s o vs) as [(u & -> & E)|[NW E]]; rewrite E.
  - pose proof (started_taken sha1 p cwd d ops (proj1 R)) as R0. fold s0 in R0.
    assert (L0 : (List.length (pr_torrents s0) <= n)%nat) by (destruct TW as ((_ & _ & E3) & _); rewrite <- E3; exact LN0).
    destruct (write_saved sha1 p cwd F T n d ops s u vs R AP DR LN0 TD0) as [C|S1]; [left; rewrite <- E; apply collision_v; exact C|].
    destruct (write_saved sha1 p cwd F T n d (taken ops) s0 u (fun _ => VAll) R0 AP DR L0 (twins_told _ _ _ _ _ _ TW TD0)) as [C|S2].
    { left. rewrite <- E. apply collision_v. exact (twins_collision _ _ _ _ _ TW C). }
    right. pose proof (twins_write sha1 p cwd s s0 u vs (fun _ => VAll) TW S1 S2) as X.
    assert (Q : torrent_write sha1 p cwd s0 u (fun _ => VAll) = pr_step sha1 p cwd s0 (PWrite u)).
    { exact (c89_all sha1 p cwd [(PWrite u, fun _ => VAll)] s0 ltac:(repeat constructor)). }
    rewrite <- Q. exact X.
  - right. apply twins_step; [exact NW|exact TW].
Qed.

Lemma c89_unnoticed : forall sha1 p cwd F T d ops s, started_v sha1 p cwd d ops s ->
  apart (List.length (pr_torrents s)) F T -> (forall t, (t < List.length (pr_torrents s))%nat -> disk_ready cwd (F t) d) -> told sha1 F T s ->
  let s0 := pr_run sha1 p cwd (process_init d) (map fst ops) in
  some_collision sha1 T s \/
  (Forall2 agree (pr_torrents s) (pr_torrents s0) /\ forall l, in_saved cwd l -> pr_disk s l = pr_disk s0 l).
Proof.
  intros sha1 p cwd F T d ops s R AP DR TD. cbv zeta. destruct (twins_run _ _ _ _ _ _ _ _ _ R AP DR (le_n _) TD) as [C|(_ & X & D)]; [auto|right; auto].
Qed.
