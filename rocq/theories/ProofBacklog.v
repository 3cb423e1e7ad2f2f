(** ProofBacklog: proofs for PropBacklog *)
From Coq Require Import Lia Permutation.
From Verif Require Import Base ModelTorrent ModelWriter ModelStream ModelPeer ModelActors ModelMain ProofBase SpecTorrent ProofTorrent
  SpecWriter ProofWriter SpecPieces SpecPeer ProofPeer SpecSystem ProofSystem SpecSession ProofSession SpecMain ProofMain SpecResume ProofResume SpecBacklog.
From Verif Require ProofDisk.

Lemma sum_perm : forall a b, Permutation a b -> sumN a = sumN b.
Proof. intros a b P. induction P; unfold sumN in *; cbn; lia. Qed.
Lemma sum_app : forall a b, sumN (a ++ b) = (sumN a + sumN b)%N.
Proof. intros a b. induction a as [|x a IH]; [reflexivity|]. unfold sumN in *. cbn. lia. Qed.

(** The pieces of a torrent are together as long as the torrent. *)
Lemma piece_len : forall T plen idx, (0 < plen)%N -> lenN (torrent_piece T plen idx) = (N.min (lenN T) ((idx + 1) * plen) - N.min (lenN T) (idx * plen))%N.
Proof.
  intros T plen idx P. unfold torrent_piece, range, lenN. rewrite firstn_length, skipn_length. nia.
Qed.
Lemma numbers_S : forall n, numbers (N.succ n) = numbers n ++ [n].
Proof. intros n. unfold numbers. rewrite N2Nat.inj_succ, seq_S, map_app. cbn. now rewrite N2Nat.id. Qed.
Lemma sum_pieces : forall T plen n, (0 < plen)%N -> sumN (map (fun idx => lenN (torrent_piece T plen idx)) (numbers n)) = N.min (lenN T) (n * plen).
Proof.
  intros T plen n P. induction n as [|n IH] using N.peano_ind; [cbn; lia|].
  rewrite numbers_S, map_app, sum_app, IH. cbn [map]. unfold sumN at 1. cbn [fold_right]. rewrite piece_len by auto. nia.
Qed.
Lemma sum_all_pieces : forall T plen, (0 < plen)%N ->
  sumN (map (fun idx => lenN (torrent_piece T plen idx)) (numbers (piece_count (lenN T) plen))) = lenN T.
Proof.
  intros T plen P. rewrite sum_pieces by auto. unfold piece_count. nia.
Qed.

(** What is delivered answers requests. *)
Lemma arrived_answers : forall ms, exists r, Permutation (map fst (arrived ms) ++ r) (flat_map answer_for ms).
Proof.
  induction ms as [|m ms (r & IH)]; [exists []; constructor|]. destruct m as [ep|ep piece idx|ep idx]; cbn [arrived flat_map answer_for app map].
  - exists r. exact IH.
  - exists r. cbn. constructor. exact IH.
  - exists (idx :: r). rewrite <- Permutation_middle. constructor. exact IH.
Qed.

Lemma right_or_forged : forall sha1 plen T s,
  Forall (fun x => sha1 (snd x) = sha1 (torrent_piece T plen (fst x))) (handed_over s ++ on_its_way s) ->
  forged sha1 plen T s \/ Forall (fun x => snd x = torrent_piece T plen (fst x)) (handed_over s ++ on_its_way s).
Proof.
  intros sha1 plen T s. unfold forged. induction (handed_over s ++ on_its_way s) as [|[idx piece] l IH]; intros F; [right; constructor|].
  inversion F as [|? ? H F']; subst. cbn [fst snd] in H. destruct (list_eq_dec N.eq_dec piece (torrent_piece T plen idx)) as [E|NE].
  - destruct (IH F') as [(i & q & I & R)|A]; [left; exists i, q; split; [right; auto|auto]|right; constructor; auto].
  - left. exists idx, piece. split; [left; auto|auto].
Qed.

Lemma all_hashed : forall sha1 p cwd ih d s i files T, reached sha1 p cwd ih d s -> ta_info (sy_actor s) = Some i -> describes sha1 i files T ->
  Forall (fun x => sha1 (snd x) = sha1 (torrent_piece T (i_piece_length i) (fst x))) (handed_over s ++ on_its_way s).
Proof.
  intros sha1 p cwd ih d s i files T R EI D. pose proof (inv_reached _ _ _ _ _ _ R) as V. unfold inv in V. rewrite EI in V.
  destruct V as (_ & _ & n & fs & q & lost & PO & GF & _ & PE & _ & _ & _ & _ & GM & GR & _).
  pose proof (describes_count _ _ _ _ _ _ D PO) as EN. destruct D as (_ & _ & _ & PP & _ & HS). apply Forall_app. split.
  - unfold handed_over. apply Forall_map. eapply Forall_impl; [|exact GR]. intros r (_ & _ & L & H). cbn [fst snd]. rewrite H. apply HS. subst n. auto.
  - change (on_its_way s) with (arrived (sy_mail s)). apply Forall_forall. intros [idx piece] I. cbn [fst snd].
    apply in_flat_map in I as (m & Im & I). destruct m as [ep|ep piece' idx'|ep idx']; try destruct I as []. 2: contradiction.
    injection H as <- <-. pose proof (proj1 (Forall_forall _ _) GM _ Im) as G. cbn in G. rewrite G. apply HS.
    assert (IN : In idx' (numbers n)).
    { eapply Permutation_in; [exact PE|]. apply in_or_app. right. apply in_or_app. left. unfold in_flight. apply in_or_app. right. apply in_or_app. right.
      apply in_flat_map. eexists. split; [exact Im|]. left. auto. }
    apply in_numbers in IN. subst n. auto.
Qed.

Lemma sum_right : forall T plen l, Forall (fun x => snd x = torrent_piece T plen (fst x)) l ->
  sumN (map (fun x : N * bytes => lenN (snd x)) l) = sumN (map (fun idx => lenN (torrent_piece T plen idx)) (map fst l)).
Proof.
  intros T plen l F. induction F as [|x l H F IH]; [reflexivity|]. unfold sumN in *. cbn [map fold_right]. rewrite IH, H. reflexivity.
Qed.

Lemma c81_like : forall sha1 p cwd ih d s0 s i files T, reached sha1 p cwd ih d s0 -> agree s0 s ->
  (exists done, to_writer (sy_trace s) = done ++ sy_writer s) -> ta_info (sy_actor s) = Some i -> describes sha1 i files T ->
  forged sha1 (i_piece_length i) T s \/ (backlog s <= lenN T)%N.
Proof.
  intros sha1 p cwd ih d s0 s i files T R (A1 & A2 & A3 & A4 & A5 & A6 & A7) (done & EW) EI D. pose proof EI as EI0. rewrite <- A1 in EI0.
  assert (AH : Forall (fun x => sha1 (snd x) = sha1 (torrent_piece T (i_piece_length i) (fst x))) (handed_over s ++ on_its_way s)).
  { pose proof (all_hashed _ _ _ _ _ _ _ _ _ R EI0 D) as H. unfold handed_over, on_its_way in H. rewrite A7, A3 in H. exact H. }
  destruct (right_or_forged sha1 (i_piece_length i) T s AH) as [F|F]; [auto|right].
  pose proof (c39 _ _ _ _ _ _ R) as C. rewrite EI0 in C. unfold waiting, in_flight, completed in C. rewrite A1, A3, A4, A5, A6, A7 in C.
  destruct C as (n & lost & PO & _ & PE). pose proof (describes_count _ _ _ _ _ _ D PO) as EN. pose proof D as (_ & _ & _ & PP & _).
  destruct (arrived_answers (sy_mail s)) as (r & PA).
  assert (FU : Forall (fun x => snd x = torrent_piece T (i_piece_length i) (fst x)) (unwritten s)).
  { unfold unwritten. apply Forall_app in F as [F1 F2]. unfold handed_over in F1. rewrite EW, map_app in F1. apply Forall_app in F1 as [_ F1].
    apply Forall_app. auto. }
  replace (backlog s) with (sumN (map (fun idx => lenN (torrent_piece T (i_piece_length i) idx)) (map fst (unwritten s))))
    by (symmetry; exact (sum_right _ _ _ FU)).
  assert (P : exists rest, Permutation (map fst (unwritten s) ++ rest) (numbers n)).
  { exists (waiting s ++ map rq_idx (sy_queue s) ++ map rq_idx (sy_working s) ++ r ++ map rd_idx done ++ lost).
    rewrite <- PE. unfold waiting, unwritten. rewrite EW, !map_app, map_map. cbn [fst].
    change (on_its_way s) with (arrived (sy_mail s)). change (map (fun x => rd_idx x) (sy_writer s)) with (map rd_idx (sy_writer s)).
    rewrite <- PA. apply perm_cnt. intros x. rewrite !cnt_app. lia. }
  destruct P as (rest & P). apply (Permutation_map (fun idx => lenN (torrent_piece T (i_piece_length i) idx))), sum_perm in P.
  rewrite map_app, sum_app in P. subst n. rewrite sum_all_pieces in P by auto. lia.
Qed.
Lemma c81 : forall sha1 p cwd ih d s i files T, reached sha1 p cwd ih d s -> ta_info (sy_actor s) = Some i -> describes sha1 i files T ->
  forged sha1 (i_piece_length i) T s \/ (backlog s <= lenN T)%N.
Proof.
  intros sha1 p cwd ih d s i files T R EI D. apply (c81_like sha1 p cwd ih d s s i files T R); auto; [unfold agree; auto 20|].
  exact (writer_suffix _ _ _ _ _ _ R).
Qed.

(** The whole process. *)
Lemma nothing_waits : forall sha1 p cwd ih d s0 s, reached sha1 p cwd ih d s0 -> agree s0 s ->
  (exists done, to_writer (sy_trace s) = done ++ sy_writer s) -> ta_info (sy_actor s) = None -> backlog s = 0%N.
Proof.
  intros sha1 p cwd ih d s0 s R (A1 & A2 & A3 & A4 & A5 & A6 & A7) (done & EW) EI. rewrite <- A1 in EI.
  pose proof (c39 _ _ _ _ _ _ R) as C. rewrite EI in C. destruct C as (_ & C1 & C2). unfold in_flight, completed in C1, C2. rewrite A3 in C1. rewrite A7, EW in C2.
  apply app_eq_nil in C1 as [_ C1]. apply app_eq_nil in C1 as [_ C1]. apply map_eq_nil in C2. apply app_eq_nil in C2 as [_ C2].
  destruct (arrived_answers (sy_mail s)) as (r & PA). rewrite C1 in PA. apply Permutation_sym, Permutation_nil in PA. apply app_eq_nil in PA as [PA _]. apply map_eq_nil in PA.
  unfold backlog, unwritten. change (on_its_way s) with (arrived (sy_mail s)). rewrite C2, PA. reflexivity.
Qed.

Lemma sum_seq : forall (T : nat -> bytes) l k,
  (forall t x, nth_error l t = Some x -> (backlog x <= lenN (T (k + t)%nat))%N) ->
  (sumN (map backlog l) <= sumN (map (fun t => lenN (T t)) (seq k (List.length l))))%N.
Proof.
  intros T l. induction l as [|x l IH]; intros k H; [cbn; lia|]. cbn [List.length seq map]. unfold sumN in *. cbn [fold_right].
  pose proof (H 0%nat x eq_refl) as H0. rewrite Nat.add_0_r in H0.
  assert (H1 : forall t y, nth_error l t = Some y -> (backlog y <= lenN (T (S k + t)%nat))%N).
  { intros t y E. specialize (H (S t) y E). now rewrite Nat.add_succ_r in H. }
  specialize (IH (S k) H1). lia.
Qed.

Lemma list_or : forall (A : Type) (P Q : nat -> A -> Prop) l, (forall t x, nth_error l t = Some x -> P t x \/ Q t x) ->
  (exists t x, nth_error l t = Some x /\ P t x) \/ (forall t x, nth_error l t = Some x -> Q t x).
Proof.
  intros A P Q l. revert P Q. induction l as [|a l IH]; intros P Q H; [right; intros [|t] x E; discriminate|].
  destruct (H 0%nat a eq_refl) as [H0|H0]; [left; exists 0%nat, a; auto|].
  destruct (IH (fun t => P (S t)) (fun t => Q (S t))) as [(t & x & E & X)|X].
  - intros t x E. apply (H (S t) x E).
  - left. exists (S t), x. auto.
  - right. intros [|t] x E; [injection E as <-; auto|apply X; exact E].
Qed.

Lemma c81_process : forall sha1 p cwd d ops s F T, started sha1 p cwd d ops s -> told sha1 F T s ->
  some_forged sha1 T s \/ (all_backlog s <= all_content T s)%N.
Proof.
  intros sha1 p cwd d ops s F T R TD.
  destruct (list_or _ (fun t x => exists i, ta_info (sy_actor x) = Some i /\ forged sha1 (i_piece_length i) (T t) x)
              (fun t x => (backlog x <= lenN (T t))%N) (pr_torrents s)) as [(t & x & E & i & EI & X)|X].
  - intros t x E. destruct (c58_alone _ _ _ _ _ _ R t x E) as (h & s0 & _ & R0 & A).
    pose proof (ProofDisk.writer_suffix _ _ _ _ _ _ R t x E) as W. destruct (ta_info (sy_actor x)) as [i|] eqn:EI.
    + destruct (c81_like _ _ _ _ _ _ _ _ _ _ R0 A W EI (TD t x i E EI)) as [Y|Y]; [left; exists i; auto|right; exact Y].
    + right. rewrite (nothing_waits _ _ _ _ _ _ _ R0 A W EI). lia.
  - left. exists t, x, i. auto.
  - right. unfold all_backlog, all_content. apply sum_seq. exact X.
Qed.


(** ** Nothing smaller *)

Definition not_write (o : op) : bool := match o with OWrite => false | _ => true end.
Lemma set_self : forall s, set_disk (sy_disk s) s = s.
Proof. intros []. reflexivity. Qed.
Lemma run_agree : forall sha1 p cwd ops x y, agree x y -> agree (sys_run sha1 p cwd x ops) (sys_run sha1 p cwd y (filter not_write ops)).
Proof.
  intros sha1 p cwd ops. induction ops as [|o ops IH]; intros x y A; [exact A|].
  change (sys_run sha1 p cwd x (o :: ops)) with (sys_run sha1 p cwd (sys_step sha1 p cwd x o) ops). cbn [filter].
  destruct (not_write o) eqn:N.
  - change (sys_run sha1 p cwd y (o :: filter not_write ops)) with (sys_run sha1 p cwd (sys_step sha1 p cwd y o) (filter not_write ops)).
    apply IH. rewrite <- (set_self x), <- (set_self y). apply sys_agree; [auto|]. intros ->. discriminate.
  - apply IH. assert (o = OWrite) by (destruct o; auto; discriminate). subst o. eapply agree_trans; [|exact A].
    rewrite <- (set_self x) at 1. apply write_agree.
Qed.
Lemma run_writer : forall sha1 p cwd ops s done, Forall (fun o => o <> OWrite) ops -> to_writer (sy_trace s) = done ++ sy_writer s ->
  to_writer (sy_trace (sys_run sha1 p cwd s ops)) = done ++ sy_writer (sys_run sha1 p cwd s ops).
Proof.
  intros sha1 p cwd ops. induction ops as [|o ops IH]; intros s done F E; [exact E|]. inversion F as [|? ? NO F']; subst.
  change (sys_run sha1 p cwd s (o :: ops)) with (sys_run sha1 p cwd (sys_step sha1 p cwd s o) ops). apply IH; [auto|].
  destruct o as [ep|k found shuffle| |k net pid fuel|]; cbn [sys_step]; [exact E| | | |congruence].
  - destruct (sy_dead s); [exact E|]. destruct (nth_error (sy_mail s) k); [|exact E].
    destruct (handle p found shuffle (sy_actor s) t) as [[a es]| |]; [|exact E|exact E]. cbn [sy_trace sy_writer].
    rewrite trace_app_writer, E, app_assoc. reflexivity.
  - destruct (sy_queue s); [exact E|]. destruct (_ <? _)%nat; exact E.
  - destruct (nth_error (sy_working s) k); [|exact E]. destruct (download _ _ _ _ _ _ _ _) as [[?|?]| |]; exact E.
Qed.
Lemma c81_all : forall sha1 p cwd ih d s i files T, reached sha1 p cwd ih d s -> requested (sy_trace s) <> [] ->
  ta_info (sy_actor s) = Some i -> describes sha1 i files T -> sy_workers s = 5%nat ->
  (forall b, List.length (sha1 b) = 20%nat) -> (lenN T + i_piece_length i <= 2 ^ 64)%N -> (i_piece_length i < 2 ^ 32)%N ->
  (piece_count (lenN T) (i_piece_length i) <= 2 ^ 32)%N ->
  (forall ep, In ep (reported s) -> ModelTracker.parse_socket_addr ep <> None) ->
  written s = [] ->
  exists ops, Forall op_ok ops /\ Forall (fun o => o <> OWrite) ops /\ let s' := sys_run sha1 p cwd s ops in
    in_flight s' = [] /\ waiting s' = [] /\ sy_disk s' = sy_disk s /\
    (forged sha1 (i_piece_length i) T s' \/ backlog s' = lenN T).
Proof.
  intros sha1 p cwd ih d s i files T R RQ EI DE W HL O P32 C32 EPS WN.
  pose proof DE as (GF & TL & L64 & PP & GFI & HS). apply c11_files in GF. pose proof (describes_total _ p _ _ _ DE) as GT.
  assert (PO : pieces_of p i (piece_count (lenN T) (i_piece_length i))) by (exists (lenN T); auto).
  destruct (can_complete sha1 p cwd ih d i _ PO (work s) s (N.le_refl _) R RQ EI W) as (ops & FO & FI).
  { intros ep idx EP I. destruct (chop 16384 _ (torrent_piece T (i_piece_length i) idx) ltac:(lia) (le_n _)) as (blks & B1 & B2 & B3).
    exists (Some (seed (compute_info_hash sha1 i) (repeat 0%N 20) idx blks)), [], (List.length blks + 2)%nat, (List.concat blks).
    rewrite (piece_length_of T _ _ PP I) in B3. specialize (HS idx I).
    assert (LS : (20 * N.to_nat idx + 20 <= List.length (i_pieces i))%nat).
    { pose proof (HL (torrent_piece T (i_piece_length i) idx)) as LL. rewrite <- HS, firstn_length, skipn_length in LL. lia. }
    apply c48_seed with (pid' := repeat 0%N 20) (total := lenN T); auto; [lia|rewrite B1; congruence]. }
  cbv zeta in FI. exists (filter not_write ops).
  assert (FO' : Forall op_ok (filter not_write ops)).
  { apply Forall_forall. intros o H. apply filter_In in H as [H _]. exact (proj1 (Forall_forall _ _) FO o H). }
  assert (FN : Forall (fun o => o <> OWrite) (filter not_write ops)).
  { apply Forall_forall. intros o H. apply filter_In in H as [_ H]. intros ->. discriminate. }
  split; [exact FO'|]. split; [exact FN|]. cbv zeta.
  pose proof (run_agree sha1 p cwd ops s s ltac:(unfold agree; auto 20)) as (A1 & A2 & A3 & A4 & A5 & A6 & A7).
  pose proof (reached_run _ _ _ _ _ _ _ R FO') as R'.
  destruct (writer_suffix _ _ _ _ _ _ R) as (done & EW). pose proof (written_prefix _ _ EW) as WP. rewrite WN in WP.
  symmetry in WP. apply map_eq_nil in WP. subst done. pose proof (run_writer sha1 p cwd _ s [] FN EW) as EW'.
  assert (DK : sy_disk (sys_run sha1 p cwd s (filter not_write ops)) = sy_disk s).
  { clear -FN. revert s. induction FN as [|o l H F IH]; intros s; [reflexivity|].
    change (sys_run sha1 p cwd s (o :: l)) with (sys_run sha1 p cwd (sys_step sha1 p cwd s o) l). rewrite IH.
    rewrite <- (set_self s) at 1. refine (proj2 (sys_agree sha1 p cwd o s s (sy_disk s) (sy_disk s) _ H)). unfold agree. auto 20. }
  set (s' := sys_run sha1 p cwd s (filter not_write ops)) in *.
  destruct FI as (E1 & E2 & E3 & E4).
  assert (F1 : in_flight s' = []) by (rewrite <- E4; unfold in_flight; rewrite A3, A4, A5; reflexivity).
  assert (F2 : waiting s' = []) by (rewrite <- E3; unfold waiting; rewrite A1; reflexivity).
  assert (F3 : ta_info (sy_actor s') = Some i) by (rewrite <- A1; exact E1).
  assert (F4 : sy_workers s' = 5%nat) by (rewrite <- A6; exact E2).
  split; [exact F1|]. split; [exact F2|]. split; [exact DK|].
  destruct (right_or_forged sha1 (i_piece_length i) T s' (all_hashed _ _ _ _ _ _ _ _ _ R' F3 DE)) as [F|F]; [auto|right].
  pose proof (c41_done _ _ _ _ _ _ _ _ R' F3 PO F4 F2 F1) as PE.
  assert (OW : on_its_way s' = []).
  { unfold in_flight in F1. apply app_eq_nil in F1 as [_ F1]. apply app_eq_nil in F1 as [_ F1]. destruct (arrived_answers (sy_mail s')) as (r & PA).
    rewrite F1 in PA. apply Permutation_sym, Permutation_nil, app_eq_nil in PA as [PA _]. apply map_eq_nil in PA. exact PA. }
  assert (UW : unwritten s' = handed_over s' ++ on_its_way s') by (unfold unwritten, handed_over; rewrite EW'; reflexivity).
  rewrite <- UW in F. transitivity (sumN (map (fun idx => lenN (torrent_piece T (i_piece_length i) idx)) (map fst (unwritten s')))).
  { exact (sum_right _ _ _ F). }
  rewrite UW, OW, app_nil_r.
  assert (HC : map fst (handed_over s') = completed s') by (unfold handed_over; rewrite map_map; reflexivity).
  rewrite HC. etransitivity; [apply sum_perm, Permutation_map; exact PE|]. apply sum_all_pieces. auto.
Qed.
