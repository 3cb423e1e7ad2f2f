(** ProofWhole: proofs for PropWhole *)
From Coq Require Import Permutation Lia.
From Verif Require Import Base Utf8 ModelBencode ModelMessages ModelTorrent ModelWriter ModelTracker ModelStream
  ModelPeer ModelActors ModelCache ModelMain ProofBase SpecBencode SpecMessages SpecTorrent ProofTorrent SpecStream SpecWriter ProofWriter SpecPieces ProofPieces
  SpecPeer ProofPeer SpecSystem ProofSystem SpecSession ProofSession SpecCache ProofCache ProofCache2 SpecTracker ProofTracker SpecLookup ProofLookup SpecMain ProofMain SpecWhole.

(** ** One torrent with honest peers *)

(** Nothing but the right data has been received. *)
Definition truthful (plen : N) (T : bytes) (s : sys) : Prop :=
  (forall r, In r (to_writer (sy_trace s)) -> rd_piece r = torrent_piece T plen (rd_idx r)) /\
  (forall ep piece idx, In (PieceDownloadSuccessfull ep piece idx) (sy_mail s) -> piece = torrent_piece T plen idx).

Lemma handle_ready : forall p found shuffle a m a' es r, handle p found shuffle a m = Ret (a', es) -> In r (readies_of es) ->
  exists ep, m = PieceDownloadSuccessfull ep (rd_piece r) (rd_idx r).
Proof.
  intros p found shuffle a m a' es r H I. destruct m as [ep|ep piece idx|ep idx]; cbn [handle] in H.
  - exfalso. unfold handle_peer_found in H. destruct (ta_info a) as [i|].
    + destruct (_ && _); [|injection H as <- <-; exact I]. apply obind_ret in H as (q & _ & H). apply obind_ret in H as ([[q' ini] es'] & E & H).
      injection H as <- <-. apply initial_no_readies in E. rewrite E in I. exact I.
    + apply obind_ret in H as (f & _ & H). destruct f as [i|]; [|injection H as <- <-; exact I].
      apply obind_ret in H as (? & _ & H). apply obind_ret in H as (? & _ & H). injection H as <- <-. exact I.
  - unfold handle_success in H. apply obind_ret in H as (i & _ & H). apply obind_ret in H as (fs & _ & H). apply obind_ret in H as (q & _ & H).
    destruct (pool_pop q) as [o q']. injection H as <- <-. destruct I as [I|I].
    + subst r. exists ep. reflexivity.
    + destruct o; destruct I.
  - exfalso. unfold handle_failed in H. apply obind_ret in H as (q & _ & H). apply obind_ret in H as (e & _ & H).
    destruct (pool_pop _) as [[n|] q']; [apply obind_ret in H as (i & _ & H)|]; injection H as <- <-; destruct I.
Qed.

(** The step is no download, or one that brings the right piece. *)
Definition honest (sha1 : bytes -> bytes) (p : profile) (plen : N) (T : bytes) (s : sys) (o : op) : Prop :=
  match o with
  | OFinish k net pid fuel => forall r piece, nth_error (sy_working s) k = Some r ->
      download sha1 p fuel net pid (rq_endpoint r) (rq_info r) (rq_idx r) = Ret (Ok piece) -> piece = torrent_piece T plen (rq_idx r)
  | _ => True
  end.

Lemma truthful_step : forall sha1 p cwd plen T s o, honest sha1 p plen T s o -> truthful plen T s -> truthful plen T (sys_step sha1 p cwd s o).
Proof.
  intros sha1 p cwd plen T s o HO [TW TM]. destruct o as [e|k found shuffle| |k net pid fuel|]; cbn [sys_step].
  - split; cbn [sy_trace sy_mail]; [exact TW|]. intros ep piece idx I. apply in_app_iff in I as [I|[I|[]]]; [eauto|discriminate].
  - destruct (sy_dead s); [split; auto|]. destruct (nth_error (sy_mail s) k) as [m|] eqn:Hm; [|split; auto].
    assert (TR : forall ep piece idx, In (PieceDownloadSuccessfull ep piece idx) (remove_nth k (sy_mail s)) -> piece = torrent_piece T plen idx).
    { intros ep piece idx I. apply in_remove in I. eauto. }
    destruct (handle p found shuffle (sy_actor s) m) as [[a es]| |] eqn:EH; split; cbn [sy_trace sy_mail]; auto.
    intros r I. rewrite trace_app_writer in I. apply in_app_iff in I as [I|I]; [auto|].
    destruct (handle_ready _ _ _ _ _ _ _ _ EH I) as (ep & ->). apply nth_error_In in Hm. eauto.
  - destruct (sy_queue s); [split; auto|]. destruct (_ <? _)%nat; split; auto.
  - destruct (nth_error (sy_working s) k) as [r|] eqn:Hr; [|split; auto]. cbn [honest] in HO.
    destruct (download _ _ _ _ _ _ _ _) as [[piece|]| |] eqn:ED; [| | |split; auto]; split; cbn [sy_trace sy_mail]; auto;
      intros ep' piece' idx' I; apply in_app_iff in I as [I|I]; eauto; [destruct I as [I|[]]|destruct I as [I|[]]; discriminate|destruct I].
    injection I as <- <- <-. eauto.
  - destruct (sy_writer_dead s); [split; auto|]. destruct (sy_writer s); [split; auto|]. destruct (write _ _ _ _ _ _ _); split; auto.
Qed.

Definition not_report (o : op) : Prop := forall ep, o <> OPeer ep.

(** [good_step] with downloads that bring the right piece. *)
Lemma honest_step : forall sha1 p cwd ih d s i n T, reached sha1 p cwd ih d s -> ta_info (sy_actor s) = Some i -> pieces_of p i n ->
  sy_workers s = 5%nat ->
  (forall ep idx, In ep (reported s) -> (idx < n)%N -> exists net pid fuel, download sha1 p fuel net pid ep i idx = Ret (Ok (torrent_piece T (i_piece_length i) idx))) ->
  in_flight s <> [] ->
  exists o, op_ok o /\ (work (sys_step sha1 p cwd s o) < work s)%N /\ sy_workers (sys_step sha1 p cwd s o) = 5%nat /\
    not_report o /\ honest sha1 p (i_piece_length i) T s o.
Proof.
  intros sha1 p cwd ih d s i n T R EI PO W DL NF.
  destruct (flight_enabled _ _ _ _ _ _ R NF) as [M|[K|[Q L]]].
  - exists (OHandle 0 (Ret None) id_shuffle). assert (OK : op_ok (OHandle 0 (Ret None) id_shuffle)) by (intros k l; apply Permutation_refl).
    split; [auto|]. enough (G : (work (sys_step sha1 p cwd s (OHandle 0 (Ret None) id_shuffle)) < work s)%N /\
      sy_workers (sys_step sha1 p cwd s (OHandle 0 (Ret None) id_shuffle)) = 5%nat) by (destruct G; split; [auto|]; split; [auto|]; split; [intros ep; discriminate|exact Logic.I]).
    destruct (c46_step _ _ _ _ _ _ _ _ R OK EI) as [X|[X|[[(ep & X) _]|[X _]]]]; try discriminate.
    + exfalso. destruct (sy_mail s) as [|m t] eqn:EM; [congruence|].
      apply (f_equal (fun st => List.length (sy_mail st))) in X. cbn [sys_step] in X. rewrite (c44_safe _ _ _ _ _ _ _ R EI), EM in X. cbn [nth_error] in X.
      destruct (handle_returns _ _ _ _ _ _ m 0 _ R EI ltac:(rewrite EM; reflexivity)) as (a & es & EH). rewrite EH in X.
      cbn [sy_mail remove_nth List.length] in X. lia.
    + split; [auto|]. cbn [sys_step]. destruct (sy_dead s); [auto|]. destruct (nth_error (sy_mail s) 0); [|auto].
      destruct (handle p (Ret None) id_shuffle (sy_actor s) t) as [[a es]| |]; auto.
  - destruct (sy_working s) as [|r t] eqn:EW; [congruence|].
    pose proof (inv_reached _ _ _ _ _ _ R) as I. unfold inv in I. rewrite EI in I.
    destruct I as (D & W5 & n' & files & q & lost & PO' & GF & EP & PM & LW & NI & II & FQ & FM & FR & FT).
    assert (n' = n) by (eapply pieces_of_unique; eauto). subst n'.
    assert (RI : rq_info r = i). { rewrite Forall_forall in FQ. apply FQ. rewrite EW. apply in_or_app. right. left. auto. }
    assert (RX : (rq_idx r < n)%N).
    { apply in_numbers. apply (Permutation_in _ PM). apply in_or_app. right. apply in_or_app. left.
      unfold in_flight. rewrite EW. apply in_or_app. right. left. auto. }
    assert (RE : In (rq_endpoint r) (reported s)).
    { unfold reported. rewrite found_app. apply in_or_app. left. rewrite <- (proj1 (c45 _ _ _ _ _ _ R)).
      apply (known_endpoints _ _ _ _ _ _ R). rewrite EW. apply in_or_app. left. apply in_map. apply in_or_app. right. apply in_or_app. left. left. auto. }
    destruct (DL (rq_endpoint r) (rq_idx r) RE RX) as (net & pid & fuel & ED).
    exists (OFinish 0 net pid fuel). split; [exact Logic.I|]. cbn [sys_step honest]. rewrite EW. cbn [nth_error]. rewrite RI, ED.
    cbn [sy_workers]. split; [|split; [auto|split; [intros ep; discriminate|]]].
    + unfold work, waiting. cbn [sy_actor sy_queue sy_working sy_mail sy_writer remove_nth].
      rewrite EW, map_app, sumN_app. unfold lenN. cbn [List.length map mail_weight sumN fold_right]. lia.
    + intros r' piece E E'. injection E as <-. rewrite RI, ED in E'. injection E' as <-. reflexivity.
  - destruct (sy_queue s) as [|r t] eqn:EQ; [congruence|]. exists OStart. split; [exact Logic.I|]. cbn [sys_step honest]. rewrite EQ.
    rewrite (proj2 (Nat.ltb_lt _ _) L). cbn [sy_workers]. split; [|split; [auto|split; [intros ep; discriminate|exact Logic.I]]].
    unfold work, waiting. cbn [sy_actor sy_queue sy_working sy_mail sy_writer]. rewrite EQ, lenN_app'. unfold lenN. cbn [List.length]. lia.
Qed.

Lemma honest_complete : forall sha1 p cwd ih d i n T, pieces_of p i n ->
  forall w s, (work s <= w)%N -> reached sha1 p cwd ih d s -> requested (sy_trace s) <> [] -> ta_info (sy_actor s) = Some i ->
  sy_workers s = 5%nat ->
  (forall ep idx, In ep (reported s) -> (idx < n)%N -> exists net pid fuel, download sha1 p fuel net pid ep i idx = Ret (Ok (torrent_piece T (i_piece_length i) idx))) ->
  truthful (i_piece_length i) T s ->
  exists ops, Forall op_ok ops /\ Forall not_report ops /\ let s' := sys_run sha1 p cwd s ops in
    ta_info (sy_actor s') = Some i /\ sy_workers s' = 5%nat /\ waiting s' = [] /\ in_flight s' = [] /\ truthful (i_piece_length i) T s'.
Proof.
  intros sha1 p cwd ih d i n T PO w. induction w as [|w IH] using N.peano_ind; intros s L R RQ EI W DL TR;
    (destruct (in_flight s) as [|x t] eqn:F;
     [exists []; split; [constructor|]; split; [constructor|]; cbn; split; [auto|]; split; [auto|]; split; [|auto];
      destruct (c40 _ _ _ _ _ _ R) as [_ X]; apply X; auto; rewrite F, W; cbn; lia|]).
  - destruct (honest_step _ _ _ _ _ _ _ _ _ R EI PO W DL ltac:(congruence)) as (o & _ & X & _). lia.
  - destruct (honest_step _ _ _ _ _ _ _ _ _ R EI PO W DL ltac:(congruence)) as (o & OK & X & W' & NP & HO).
    destruct (IH (sys_step sha1 p cwd s o) ltac:(lia) (reached_step _ _ _ _ _ _ _ R OK) (requested_step _ _ _ _ _ RQ) (step_info _ _ _ _ _ _ o _ R EI) W'
      (fun ep idx H => DL ep idx (ProofSystem.reported_step _ _ _ _ _ NP _ H)) (truthful_step _ _ _ _ _ _ _ HO TR))
      as (ops & FO & FN & G). exists (o :: ops). split; [constructor; auto|]. split; [constructor; auto|]. exact G.
Qed.

Lemma truthful_no_collision : forall sha1 plen T s, truthful plen T s -> ~ collision sha1 plen T s.
Proof. intros sha1 plen T s [H _] (r & I & N & _). auto. Qed.

(** A torrent with requests out, honest peers and a disk that can take it is completed. *)
Lemma honest_torrent : forall sha1 p cwd ih d s i files T, reached sha1 p cwd ih d s -> requested (sy_trace s) <> [] ->
  ta_info (sy_actor s) = Some i -> describes sha1 i files T -> disk_ready cwd files d -> sy_workers s = 5%nat ->
  (forall b, List.length (sha1 b) = 20%nat) -> (lenN T + i_piece_length i <= 2 ^ 64)%N -> (i_piece_length i < 2 ^ 32)%N ->
  (piece_count (lenN T) (i_piece_length i) <= 2 ^ 32)%N ->
  (forall ep, In ep (reported s) -> ModelTracker.parse_socket_addr ep <> None) -> truthful (i_piece_length i) T s ->
  exists ops, Forall op_ok ops /\ Forall not_report ops /\ let s' := sys_run sha1 p cwd s ops in
    (forall k f, nth_error files k = Some f -> (0 < f_length f)%N ->
       sy_disk s' (cwd ++ f_path f) = Some (NFile (file_content T files k f))) /\
    (forall l, unrelated cwd files l -> sy_disk s' l = d l).
Proof.
  intros sha1 p cwd ih d s i files T R RQ EI DE DR W HL O P32 C32 EPS TR.
  pose proof DE as (GF & TL & L64 & PP & GFI & HS). apply c11_files in GF. pose proof (describes_total _ p _ _ _ DE) as GT.
  assert (PO : pieces_of p i (piece_count (lenN T) (i_piece_length i))) by (exists (lenN T); auto).
  destruct (honest_complete sha1 p cwd ih d i _ T PO (work s) s ltac:(lia) R RQ EI W) as (ops & FO & FN & G).
  { intros ep idx EP I. destruct (chop 16384 _ (torrent_piece T (i_piece_length i) idx) ltac:(lia) (le_n _)) as (blks & B1 & B2 & B3).
    exists (Some (seed (compute_info_hash sha1 i) (repeat 0%N 20) idx blks)), [], (List.length blks + 2)%nat.
    rewrite (piece_length_of T _ _ PP I) in B3. specialize (HS idx I).
    assert (LS : (20 * N.to_nat idx + 20 <= List.length (i_pieces i))%nat).
    { pose proof (HL (torrent_piece T (i_piece_length i) idx)) as LL. rewrite <- HS, firstn_length, skipn_length in LL. lia. }
    rewrite <- B1. apply c48_seed with (pid' := repeat 0%N 20) (total := lenN T); auto; [lia|rewrite B1; congruence]. }
  { exact TR. }
  cbn zeta in G. pose proof (ProofSystem.reached_run _ _ _ _ _ ops s R FO) as R'. set (s' := sys_run sha1 p cwd s ops) in *.
  destruct G as (EI' & W' & Q & F & TR').
  exists (ops ++ repeat OWrite (List.length (sy_writer s'))).
  assert (FW : Forall op_ok (repeat OWrite (List.length (sy_writer s')))) by (apply Forall_forall; intros o X; apply repeat_spec in X as ->; exact Logic.I).
  split; [apply Forall_app; auto|]. split.
  { apply Forall_app; split; [auto|]. apply Forall_forall; intros o X; apply repeat_spec in X as ->. intros ep. discriminate. }
  rewrite ProofSystem.run_app. fold s'. cbn zeta. clearbody s'.
  destruct (can_drain sha1 p cwd ih d i files T DE DR _ s' eq_refl R' EI' W' Q F) as [C|G]; [destruct (truthful_no_collision _ _ _ _ TR' C)|]. cbn zeta in G.
  pose proof (ProofSystem.reached_run _ _ _ _ _ _ s' R' FW) as R''.
  set (s'' := sys_run sha1 p cwd s' (repeat OWrite (List.length (sy_writer s')))) in *. clearbody s''.
  destruct G as (EI'' & W'' & Q'' & F'' & WQ & ET).
  destruct (c42 _ _ _ _ _ _ _ _ _ R'' EI'' DE DR) as [C|(_ & _ & _ & UN & G)].
  - exfalso. apply (truthful_no_collision sha1 _ _ _ TR'). unfold collision in *. rewrite ET in C. exact C.
  - split; [|exact UN]. apply G. eapply c42_done; eauto.
Qed.

(** ** Reports handled *)

Definition no_found : op := OHandle 0 (Ret None) id_shuffle.

(** A torrent that has the description and nothing but reports in its mailbox. *)
Definition counting (i : info) (q : piece_pool) (x : sys) : Prop :=
  sy_dead x = false /\ ta_info (sy_actor x) = Some i /\ sy_workers x = 5%nat /\ to_writer (sy_trace x) = [] /\
  if ta_initiated (sy_actor x) then requested (sy_trace x) <> [] /\ exists q', ta_pool (sy_actor x) = Some q'
  else ta_pool (sy_actor x) = Some q /\ (lenN (ta_peers (sy_actor x)) <= 10)%N.

Lemma count_step : forall sha1 p cwd i q x ep eps, q <> [] -> counting i q x -> sy_mail x = map PeerFound (ep :: eps) ->
  let x' := sys_step sha1 p cwd x no_found in
  counting i q x' /\ sy_mail x' = map PeerFound eps /\ sy_disk x' = sy_disk x /\
  lenN (ta_peers (sy_actor x')) = (lenN (ta_peers (sy_actor x)) + 1)%N.
Proof.
  intros sha1 p cwd i q x ep eps NQ (D & EI & W & TW & B) EM. unfold no_found. cbn [sys_step]. rewrite D, EM. cbn [map nth_error handle].
  unfold handle_peer_found. rewrite EI. set (peers := ta_peers (sy_actor x) ++ [apeer_new ep]).
  assert (LP : lenN peers = (lenN (ta_peers (sy_actor x)) + 1)%N) by (unfold peers, lenN; rewrite app_length; cbn [List.length]; lia).
  destruct (ta_initiated (sy_actor x)) eqn:IN.
  - rewrite Bool.andb_false_r. unfold counting. cbn [sy_dead sy_actor sy_mail sy_workers sy_disk sy_trace ta_info ta_peers ta_initiated ta_pool].
    rewrite trace_app_writer, trace_app_requested. cbn [readies_of requests_of flat_map remove_nth map]. rewrite !app_nil_r. auto 10.
  - destruct B as [EP L]. rewrite Bool.andb_true_r. destruct (10 <? lenN peers)%N eqn:T.
    + rewrite EP. cbn [unwrap obind].
      destruct (initial_spec 5 0 id_shuffle i peers q false) as (es & E & RD & RQ & _).
      { intros k l. apply Permutation_refl. } { intros X. unfold peers in X. apply app_eq_nil in X as [_ X]. discriminate. }
      rewrite E. cbn [obind]. destruct q as [|n q']; [congruence|]. cbn [firstn].
      unfold counting. cbn [sy_dead sy_actor sy_mail sy_workers sy_disk sy_trace ta_info ta_peers ta_initiated ta_pool].
      rewrite trace_app_writer, trace_app_requested, RD, TW. cbn [remove_nth map app]. split; [|auto].
      repeat split; auto; [|eauto]. intros X. apply app_eq_nil in X as [_ X]. rewrite X in RQ. discriminate.
    + unfold counting. cbn [sy_dead sy_actor sy_mail sy_workers sy_disk sy_trace ta_info ta_peers ta_initiated ta_pool].
      rewrite trace_app_writer. cbn [readies_of requests_of flat_map remove_nth map]. rewrite !app_nil_r.
      apply N.ltb_ge in T. auto 10.
Qed.

Lemma count_run : forall sha1 p cwd i q eps x, q <> [] -> counting i q x -> sy_mail x = map PeerFound eps ->
  let x' := sys_run sha1 p cwd x (repeat no_found (List.length eps)) in
  counting i q x' /\ sy_mail x' = [] /\ sy_disk x' = sy_disk x /\
  lenN (ta_peers (sy_actor x')) = (lenN (ta_peers (sy_actor x)) + lenN eps)%N.
Proof.
  intros sha1 p cwd i q. induction eps as [|ep eps IH]; intros x NQ C EM.
  - cbn. split; [auto|]. split; [auto|]. split; [auto|]. lia.
  - destruct (count_step sha1 p cwd i q x ep eps NQ C EM) as (C' & EM' & ED & EL). cbn zeta in *.
    destruct (IH (sys_step sha1 p cwd x no_found) NQ C' EM') as (C'' & EM'' & ED' & EL'). cbn zeta in *.
    cbn [List.length repeat]. change (sys_run sha1 p cwd x (no_found :: repeat no_found (List.length eps)))
      with (sys_run sha1 p cwd (sys_step sha1 p cwd x no_found) (repeat no_found (List.length eps))).
    split; [auto|]. split; [auto|]. split; [congruence|]. rewrite EL', EL. unfold lenN. cbn [List.length]. lia.
Qed.

(** A new torrent that is told of more than ten peers, the first of which has the description. *)
Definition opening_ops (i : info) (eps : list bytes) : list op :=
  map OPeer eps ++ OHandle 0 (Ret (Some i)) id_shuffle :: repeat no_found (List.length eps - 1).

Lemma reports_run : forall sha1 p cwd eps x, let x' := sys_run sha1 p cwd x (map OPeer eps) in
  sy_mail x' = sy_mail x ++ map PeerFound eps /\ sy_actor x' = sy_actor x /\ sy_dead x' = sy_dead x /\ sy_workers x' = sy_workers x /\
  sy_disk x' = sy_disk x /\ sy_trace x' = sy_trace x.
Proof.
  intros sha1 p cwd. induction eps as [|ep eps IH]; intros x; [cbn; rewrite app_nil_r; auto 10|].
  cbn [map]. change (sys_run sha1 p cwd x (OPeer ep :: map OPeer eps)) with (sys_run sha1 p cwd (sys_step sha1 p cwd x (OPeer ep)) (map OPeer eps)).
  destruct (IH (sys_step sha1 p cwd x (OPeer ep))) as (A & B & C & D & E & F). cbn zeta in *. rewrite A, B, C, D, E, F. cbn [sys_step sy_mail sy_actor sy_dead sy_workers sy_disk sy_trace].
  rewrite <- app_assoc. auto 10.
Qed.

Lemma opening_run : forall sha1 p cwd h d i files T eps, describes sha1 i files T -> T <> [] -> (10 < lenN eps)%N ->
  let x := sys_run sha1 p cwd (sys_init h d) (opening_ops i eps) in
  Forall op_ok (opening_ops i eps) /\ ta_info (sy_actor x) = Some i /\ sy_workers x = 5%nat /\ requested (sy_trace x) <> [] /\
  truthful (i_piece_length i) T x /\ sy_disk x = d.
Proof.
  intros sha1 p cwd h d i files T eps DE NT LE x. subst x.
  assert (OKS : forall k l, Permutation (id_shuffle k l) l) by (intros k l; apply Permutation_refl).
  split.
  { unfold opening_ops. apply Forall_app. split; [apply Forall_forall; intros o I; apply in_map_iff in I as (? & <- & _); exact Logic.I|].
    constructor; [exact OKS|]. apply Forall_forall. intros o I. apply repeat_spec in I as ->. exact OKS. }
  unfold opening_ops. rewrite ProofSystem.run_app.
  destruct (reports_run sha1 p cwd eps (sys_init h d)) as (A & B & C & D & E & F). cbn zeta in *.
  set (x0 := sys_run sha1 p cwd (sys_init h d) (map OPeer eps)) in *. clearbody x0. cbn [sys_init sy_mail sy_actor sy_dead sy_workers sy_disk sy_trace app] in *.
  destruct eps as [|ep eps]; [cbn in LE; lia|]. cbn [List.length]. rewrite Nat.sub_0_r || replace (S (List.length eps) - 1)%nat with (List.length eps) by lia.
  change (sys_run sha1 p cwd x0 (OHandle 0 (Ret (Some i)) id_shuffle :: repeat no_found (List.length eps)))
    with (sys_run sha1 p cwd (sys_step sha1 p cwd x0 (OHandle 0 (Ret (Some i)) id_shuffle)) (repeat no_found (List.length eps))).
  pose proof (describes_total _ p _ _ _ DE) as GT. pose proof DE as (_ & _ & _ & PP & _).
  set (q := pool_new (piece_count (lenN T) (i_piece_length i))).
  assert (NQ : q <> []).
  { unfold q, pool_new. assert (0 < piece_count (lenN T) (i_piece_length i))%N.
    { unfold piece_count. apply N.div_str_pos. destruct T; [congruence|]. unfold lenN. cbn [List.length]. lia. }
    destruct (N.to_nat (piece_count (lenN T) (i_piece_length i))) eqn:Z; [lia|]. cbn. discriminate. }
  assert (ST : exists x1, sys_step sha1 p cwd x0 (OHandle 0 (Ret (Some i)) id_shuffle) = x1 /\ counting i q x1 /\ sy_mail x1 = map PeerFound eps /\ sy_disk x1 = d /\ lenN (ta_peers (sy_actor x1)) = 1%N).
  { eexists. split; [reflexivity|]. cbn [sys_step]. rewrite C, A, B. cbn [map nth_error handle].
    unfold handle_peer_found. cbn [torrent_actor_new ta_info ta_peers obind]. rewrite GT. cbn [obind]. unfold get_piece_length.
    assert (SB : step_by_len (lenN T) (i_piece_length i) = Ret (piece_count (lenN T) (i_piece_length i))) by (apply step_by_count; lia).
    rewrite SB. cbn [obind]. unfold counting. cbn [sy_dead sy_actor sy_mail sy_workers sy_disk sy_trace ta_info ta_peers ta_initiated ta_pool ta_info_hash remove_nth map app].
    rewrite F. cbn. repeat split; auto. vm_compute. discriminate. }
  destruct ST as (x1 & -> & CO & EM & ED & EL).
  destruct (count_run sha1 p cwd i q eps x1 NQ CO EM) as ((_ & EI & W & TW & BB) & EM' & ED' & EL'). cbn zeta in *.
  set (x2 := sys_run sha1 p cwd x1 (repeat no_found (List.length eps))) in *. clearbody x2.
  split; [auto|]. split; [auto|]. split.
  { destruct (ta_initiated (sy_actor x2)); [tauto|]. exfalso. destruct BB as [_ BB]. rewrite EL', EL in BB. unfold lenN in *. cbn [List.length] in LE. lia. }
  split; [|congruence]. split; [rewrite TW; intros r []|rewrite EM'; intros ? ? ? []].
Qed.

(** ** Steps of a torrent as steps of the process *)

Definition lift (t : nat) (o : op) : pop :=
  match o with
  | OPeer _ => PStart t
  | OHandle k _ shuffle => PHandle t k 0 0 None [] shuffle
  | OStart => PStart t
  | OFinish k net pid fuel => PFinish t k net pid fuel
  | OWrite => PWrite t
  end.

Lemma lift_ok : forall t ops, Forall op_ok ops -> Forall pop_ok (map (lift t) ops).
Proof. intros t ops F. apply Forall_forall. intros o I. apply in_map_iff in I as (o' & <- & I). rewrite Forall_forall in F. specialize (F o' I). destruct o'; exact F || exact Logic.I. Qed.

(** [x] is torrent [t] of [s], with the disk of [s]. *)
Definition shows (s : process) (t : nat) (x : sys) : Prop :=
  exists y, nth_error (pr_torrents s) t = Some y /\ set_disk (pr_disk s) y = x.

(** Only torrent [t] and the disk differ. *)
Definition only_torrent (t : nat) (s s' : process) : Prop :=
  pr_trackers s' = pr_trackers s /\ pr_interface s' = pr_interface s /\ List.length (pr_torrents s') = List.length (pr_torrents s) /\
  forall u, u <> t -> nth_error (pr_torrents s') u = nth_error (pr_torrents s) u.

Lemma set_disk_self : forall x, set_disk (sy_disk x) x = x.
Proof. intros []. reflexivity. Qed.

Lemma torrent_shows : forall sha1 p cwd s t x o, shows s t x ->
  shows (torrent_step sha1 p cwd s t o) t (sys_step sha1 p cwd x o) /\ only_torrent t s (torrent_step sha1 p cwd s t o).
Proof.
  intros sha1 p cwd s t x o (y & E & <-). split.
  - exists (sys_step sha1 p cwd (set_disk (pr_disk s) y) o). rewrite torrent_nth, Nat.eqb_refl, E. cbn [option_map]. split; [auto|].
    unfold torrent_step. rewrite E. cbn [pr_disk]. apply set_disk_self.
  - split; [apply torrent_trackers|]. split; [apply torrent_interface|]. split; [apply torrent_length|]. intros u N. rewrite torrent_nth.
    rewrite (proj2 (Nat.eqb_neq u t)) by auto. auto.
Qed.

Lemma shows_disk : forall s t x, shows s t x -> sy_disk x = pr_disk s.
Proof. intros s t x (y & _ & <-). reflexivity. Qed.

Lemma lift_step : forall sha1 p cwd s t x i o, shows s t x -> ta_info (sy_actor x) = Some i -> not_report o ->
  shows (pr_step sha1 p cwd s (lift t o)) t (sys_step sha1 p cwd x o) /\ only_torrent t s (pr_step sha1 p cwd s (lift t o)).
Proof.
  intros sha1 p cwd s t x i o SH EI NP. destruct o as [ep|k found shuffle| |k net pid fuel|]; cbn [lift].
  - destruct (NP ep eq_refl).
  - assert (E : pr_step sha1 p cwd s (PHandle t k 0 0 None [] shuffle) = torrent_step sha1 p cwd s t (OHandle k (Ret None) shuffle)).
    { cbn [pr_step]. destruct SH as (y & E & <-). rewrite E. cbn [set_disk sy_actor] in EI. rewrite EI.
      destruct (nth_error (sy_mail y) k) as [[]|]; reflexivity. }
    rewrite E. assert (E' : sys_step sha1 p cwd x (OHandle k found shuffle) = sys_step sha1 p cwd x (OHandle k (Ret None) shuffle)).
    { cbn [sys_step]. destruct (sy_dead x); [auto|]. destruct (nth_error (sy_mail x) k) as [m|]; [|auto].
      assert (EH : handle p found shuffle (sy_actor x) m = handle p (Ret None) shuffle (sy_actor x) m).
      { destruct m; try reflexivity. cbn [handle]. unfold handle_peer_found. rewrite EI. reflexivity. }
      rewrite EH. reflexivity. }
    rewrite E'. apply torrent_shows; auto.
  - apply torrent_shows; auto.
  - apply torrent_shows; auto.
  - apply torrent_shows; auto.
Qed.

Lemma only_trans : forall t a b c, only_torrent t a b -> only_torrent t b c -> only_torrent t a c.
Proof.
  intros t a b c (A1 & A2 & A3 & A4) (B1 & B2 & B3 & B4). split; [congruence|]. split; [congruence|]. split; [congruence|].
  intros u N. rewrite B4, A4; auto.
Qed.
Lemma only_refl : forall t a, only_torrent t a a.
Proof. intros. repeat split. Qed.

Lemma lift_run : forall sha1 p cwd t i ops s x, shows s t x -> ta_info (sy_actor x) = Some i -> Forall not_report ops ->
  let s' := pr_run sha1 p cwd s (map (lift t) ops) in
  shows s' t (sys_run sha1 p cwd x ops) /\ only_torrent t s s'.
Proof.
  intros sha1 p cwd t i. induction ops as [|o ops IH]; intros s x SH EI F.
  - cbn. split; [auto|apply only_refl].
  - inversion F; subst. destruct (lift_step sha1 p cwd s t x i o SH EI) as [S1 O1]; [auto|].
    destruct (IH _ _ S1) as [S2 O2]; [apply info_stable; auto|auto|]. cbn zeta in *. cbn [map].
    split; [exact S2|]. eapply only_trans; eauto.
Qed.

(** ** From the link to the reports *)

Definition never (_ : nat) : bool := false.

Lemma prun_cons : forall sha1 p cwd s o ops, pr_run sha1 p cwd s (o :: ops) = pr_run sha1 p cwd (pr_step sha1 p cwd s o) ops.
Proof. reflexivity. Qed.

(** The interface hands on everything it has. *)
Lemma interface_run : forall sha1 p cwd k l s x, pr_interface s = l -> nth_error (pr_trackers s) k = Some x -> tk_alive x = true ->
  let s' := pr_run sha1 p cwd s (repeat (PInterface never) (List.length l)) in
  pr_torrents s' = pr_torrents s /\ pr_disk s' = pr_disk s /\ pr_interface s' = [] /\
  nth_error (pr_trackers s') k = Some {| tk_url := tk_url x; tk_alive := true; tk_mail := tk_mail x ++ l; tk_jobs := tk_jobs x |}.
Proof.
  intros sha1 p cwd k. induction l as [|r l IH]; intros s x EI EX AL.
  - cbn. rewrite app_nil_r, EX, <- AL. destruct x. auto.
  - cbn [List.length repeat]. rewrite prun_cons. cbn [pr_step]. rewrite EI.
    set (s1 := {| pr_torrents := pr_torrents s; pr_interface := l; pr_trackers := forward_all never r 0 (pr_trackers s); pr_disk := pr_disk s |}).
    assert (EX1 : nth_error (pr_trackers s1) k = Some (tracker_push x r)).
    { unfold s1. cbn [pr_trackers]. rewrite nth_forward, EX. cbn [option_map]. unfold forward, never. rewrite AL. reflexivity. }
    destruct (IH s1 (tracker_push x r) eq_refl EX1 AL) as (A & B & C & D). cbn zeta in *. rewrite A, B, C, D. cbn [tracker_push tk_url tk_mail tk_jobs].
    rewrite <- app_assoc. auto.
Qed.

(** A tracker takes everything in its mailbox. *)
Lemma take_run : forall sha1 p cwd k l s x, nth_error (pr_trackers s) k = Some x -> tk_mail x = l ->
  let s' := pr_run sha1 p cwd s (repeat (PTake k) (List.length l)) in
  pr_torrents s' = pr_torrents s /\ pr_disk s' = pr_disk s /\
  nth_error (pr_trackers s') k = Some {| tk_url := tk_url x; tk_alive := tk_alive x; tk_mail := []; tk_jobs := tk_jobs x ++ map Asking l |}.
Proof.
  intros sha1 p cwd k. induction l as [|r l IH]; intros s x EX EM.
  - cbn. rewrite app_nil_r, EX, <- EM. destruct x. auto.
  - cbn [List.length repeat]. rewrite prun_cons.
    set (x1 := {| tk_url := tk_url x; tk_alive := tk_alive x; tk_mail := l; tk_jobs := tk_jobs x ++ [Asking r] |}).
    assert (EX1 : nth_error (pr_trackers (pr_step sha1 p cwd s (PTake k))) k = Some x1).
    { cbn [pr_step with_trackers pr_trackers]. rewrite nth_update, Nat.eqb_refl, EX. cbn [option_map]. rewrite EM. reflexivity. }
    destruct (IH _ x1 EX1 eq_refl) as (A & B & C). cbn zeta in *. rewrite A, B, C. cbn [x1 tk_url tk_alive tk_jobs map].
    rewrite <- app_assoc. auto.
Qed.

(** A job reports all its peers. *)
Lemma report_run : forall sha1 p cwd k j r es s x, nth_error (pr_trackers s) k = Some x -> nth_error (tk_jobs x) j = Some (Reporting r es) ->
  (forall e, In e es -> ModelTracker.parse_socket_addr (endpoint e) <> None) ->
  forall z, shows s (rg_torrent r) z ->
  let s' := pr_run sha1 p cwd s (repeat (PReport k j (fun _ => true)) (List.length es)) in
  shows s' (rg_torrent r) (sys_run sha1 p cwd z (map (fun e => OPeer (endpoint e)) es)) /\
  pr_disk s' = pr_disk s /\ List.length (pr_torrents s') = List.length (pr_torrents s) /\
  (forall u, u <> rg_torrent r -> nth_error (pr_torrents s') u = nth_error (pr_torrents s) u).
Proof.
  intros sha1 p cwd k j r. induction es as [|e es IH]; intros s x EX EJ PA z SH.
  - cbn. auto.
  - cbn [List.length repeat]. rewrite prun_cons. cbn [pr_step]. rewrite EX, EJ.
    set (s1 := with_trackers s (update_nth k (fun x => set_jobs x (update_nth j (fun _ => Reporting r es) (tk_jobs x))) (pr_trackers s))).
    assert (RE : is_reachable (fun _ => true) (endpoint e) = true).
    { unfold is_reachable. destruct (ModelTracker.parse_socket_addr (endpoint e)) eqn:P; [auto|]. destruct (PA e (or_introl eq_refl) P). }
    rewrite RE. assert (SH1 : shows s1 (rg_torrent r) z) by exact SH.
    destruct (torrent_shows sha1 p cwd s1 (rg_torrent r) z (OPeer (endpoint e)) SH1) as [SH2 (O1 & O2 & O3 & O4)].
    assert (EX2 : nth_error (pr_trackers (torrent_step sha1 p cwd s1 (rg_torrent r) (OPeer (endpoint e)))) k
                  = Some (set_jobs x (update_nth j (fun _ => Reporting r es) (tk_jobs x)))).
    { rewrite torrent_trackers. unfold s1. cbn [with_trackers pr_trackers]. rewrite nth_update, Nat.eqb_refl, EX. reflexivity. }
    destruct (IH _ _ EX2) with (z := sys_step sha1 p cwd z (OPeer (endpoint e))) as (A & B & C & D).
    { cbn [set_jobs tk_jobs]. rewrite nth_update, Nat.eqb_refl, EJ. reflexivity. }
    { intros e' I. apply PA. right. exact I. }
    { exact SH2. }
    cbn zeta in *. split; [exact A|]. split.
    + rewrite B. rewrite pr_disk_step by discriminate. reflexivity.
    + split; [rewrite C, O3; reflexivity|]. intros u N. rewrite D, O4 by auto. reflexivity.
Qed.

(** ** Getting the description *)

Lemma plain_rust : forall i, plain_info i -> octets (i_pieces i) -> rust_info i.
Proof.
  intros i (F & L & (NA & _ & _) & P & _) O. split; [|split; [|split; [|split]]]; auto.
  - intros l E. specialize (F l E). eapply Forall_impl; [|exact F]. intros f [FA FL]. split; [|exact FL].
    eapply Forall_impl; [|exact FA]. intros c (A & _). apply ascii_text. exact A.
  - apply ascii_text. exact NA.
Qed.

Lemma collect_ok : forall sha1 i files T cwd d ep, (forall b, List.length (sha1 b) = 20%nat) -> publishable sha1 i files T ->
  let h := sha1 (benc (info_value i)) in
  description_ok cwd h i d -> ModelTracker.parse_socket_addr ep <> None ->
  exists accept fuel net pid d', collect_info accept fuel cwd d net pid h ep = Ret (Some i, d') /\
    d' (in_downloads cwd (encode_binary h)) = Some (NFile (js_info i)).
Proof.
  intros sha1 i files T cwd d ep HL PB h [DD DF] EP. destruct PB as [PI PO _ _ _ _ PM _].
  set (meta := benc (info_value i)) in *.
  assert (MP : (0 < lenN meta)%N) by (unfold meta, info_value, lenN; cbn [benc]; rewrite app_length; change (List.length (s2b "d")) with 1%nat; lia).
  destruct (chop 16384 _ meta ltac:(lia) (le_n _)) as (blks & B1 & B2 & B3).
  exists (List.length (js_info i)), (List.length blks + 2)%nat, (Some (info_seed h (repeat 0%N 20) (lenN meta) 1 blks)), [].
  assert (W : exists d1, walk_create d cwd [dot; downloads] = Some (d1, cwd ++ [downloads])).
  { cbn [walk_create]. change (bytes_eqb dot [] || bytes_eqb dot dot) with true. cbv iota.
    change (bytes_eqb downloads [] || bytes_eqb downloads dot) with false. change (bytes_eqb downloads dotdot) with false. cbv iota zeta.
    change (s2b "downloads") with downloads in DD. destruct DD as [-> | ->]; eauto. }
  destruct W as (d1 & W). destruct (walk_downloads _ _ _ _ W) as (_ & _ & DO & _).
  change (in_downloads cwd (encode_binary h)) with (cache_loc cwd h) in *. pose proof (cache_loc_ne cwd h) as NE.
  unfold collect_info. rewrite W. unfold from_file. rewrite (DO _ NE). destruct DF as [DF|DF]; rewrite DF.
  - cbn [obind]. assert (LH : List.length h = 20%nat) by apply HL.
    rewrite (c49_seed (lenN meta) 1) with (i := i); auto; try lia.
    + cbn [obind]. unfold save. rewrite (DO _ NE), DF. cbn [obind]. eexists. split; [reflexivity|].
      rewrite set_same, firstn_all2 by lia. reflexivity.
    + rewrite B1. unfold meta. rewrite <- enc_info_canonical by auto. apply c09; auto.
  - rewrite (info_text i (plain_rust i PI PO)), (json_round_trip i (plain_rust i PI PO)). cbn [obind]. exists d1. split; [reflexivity|].
    rewrite (DO _ NE). exact DF.
Qed.

(** ** C62 *)

Definition some_address (k : nat) : address := {| ad_1 := 10; ad_2 := 0; ad_3 := 0; ad_4 := N.of_nat k; ad_port := 6881 |}.
Definition some_addresses : list address := map some_address (seq 0 11).
Definition some_env : lookup_env :=
  {| le_get := fun _ => HttpFail; le_bound := true; le_connected := true;
     le_socket := {| us_sends := []; us_recvs := [Some []; Some (repeat 0%N 20 ++ compact some_addresses)]; us_sent := [] |}; le_pid := [] |}.

Lemma some_lookup : forall u h, In u tracker_urls -> exists es, lookup some_env u h = Ret (Ok es) /\ List.length es = 11%nat /\
  forall e, In e es -> ModelTracker.parse_socket_addr (endpoint e) <> None.
Proof.
  intros u h I.
  assert (U : u_scheme u = s2b "udp" /\ u_host u <> None /\ u_port u <> None).
  { cbn [tracker_urls In] in I. repeat (destruct I as [<-|I]; [split; [reflexivity|split; discriminate]|]). destruct I. }
  destruct U as (US & UH & UP). destruct (u_host u) as [host|] eqn:EH; [|congruence]. destruct (u_port u) as [port|] eqn:EP; [|congruence].
  assert (OK : Forall address_ok some_addresses) by (vm_compute; repeat constructor).
  destruct (c59_udp some_env u h host port [] (repeat 0%N 20) some_addresses []) as (es & E & M); auto; [vm_compute; repeat constructor|].
  exists es. split; [auto|]. assert (LE : List.length es = 11%nat) by (rewrite <- (map_length endpoint), M; reflexivity).
  split; [auto|]. intros e IE. apply (in_map endpoint) in IE. rewrite M in IE.
  change (firstn 663 some_addresses) with some_addresses in IE. apply in_map_iff in IE as (a & <- & IA).
  rewrite Forall_forall in OK. destruct (OK a IA) as (A1 & A2 & A3 & A4 & A5).
  unfold address_text. rewrite c20_parse by auto. discriminate.
Qed.

Lemma handle_disk : forall sha1 p cwd x k found shuffle, sy_disk (sys_step sha1 p cwd x (OHandle k found shuffle)) = sy_disk x.
Proof.
  intros. cbn [sys_step]. destruct (sy_dead x); [auto|]. destruct (nth_error (sy_mail x) k) as [m|]; [|auto].
  destruct (handle p found shuffle (sy_actor x) m) as [[]| |]; reflexivity.
Qed.
Lemma run_one : forall sha1 p cwd s o, sys_run sha1 p cwd s [o] = sys_step sha1 p cwd s o.
Proof. reflexivity. Qed.

Lemma reports_disk : forall sha1 p cwd d eps x,
  set_disk d (sys_run sha1 p cwd x (map OPeer eps)) = sys_run sha1 p cwd (set_disk d x) (map OPeer eps).
Proof.
  intros sha1 p cwd d. induction eps as [|e eps IH]; intros x; [reflexivity|]. cbn [map].
  change (sys_run sha1 p cwd ?a (OPeer e :: map OPeer eps)) with (sys_run sha1 p cwd (sys_step sha1 p cwd a (OPeer e)) (map OPeer eps)).
  rewrite IH. reflexivity.
Qed.

Lemma empty_files : forall files k f, total_length files = 0%N -> nth_error files k = Some f -> f_length f = 0%N.
Proof. induction files as [|g l IH]; intros [|k] f E H; cbn in *; try discriminate; [injection H as ->; lia|]. eapply IH; eauto. lia. Qed.

Lemma reported_run : forall sha1 p cwd ops s, Forall not_report ops -> incl (reported (sys_run sha1 p cwd s ops)) (reported s).
Proof.
  intros sha1 p cwd. induction ops as [|o ops IH]; intros s F; [apply incl_refl|]. inversion F; subst.
  change (sys_run sha1 p cwd s (o :: ops)) with (sys_run sha1 p cwd (sys_step sha1 p cwd s o) ops).
  eapply incl_tran; [apply IH; auto|]. apply ProofSystem.reported_step. auto.
Qed.

Lemma unrelated_description : forall cwd files h, good_files files -> outside_downloads files ->
  unrelated cwd files (in_downloads cwd (encode_binary h)).
Proof.
  intros cwd files h G O f q r I E N X. apply (outside_not_in cwd files f q r O I E N). rewrite <- X.
  exists [encode_binary h]. unfold in_downloads. rewrite <- app_assoc. reflexivity.
Qed.

Lemma c62 : forall sha1 p cwd d ops s k x raw i files T, started sha1 p cwd d ops s ->
  nth_error (pr_trackers s) k = Some x -> tk_alive x = true ->
  (forall b, List.length (sha1 b) = 20%nat) -> publishable sha1 i files T ->
  let h := sha1 (benc (info_value i)) in
  hex_link raw h -> disk_ready cwd files (pr_disk s) -> description_ok cwd h i (pr_disk s) ->
  exists ops', Forall pop_ok ops' /\ let s' := pr_run sha1 p cwd s (PAdd raw false :: ops') in
    (forall j f, nth_error files j = Some f -> (0 < f_length f)%N ->
       pr_disk s' (cwd ++ f_path f) = Some (NFile (file_content T files j f))) /\
    pr_disk s' (in_downloads cwd (encode_binary h)) = Some (NFile (js_info i)) /\
    (forall l, unrelated cwd files l -> ~ in_saved cwd l -> pr_disk s' l = pr_disk s l) /\
    List.length (pr_torrents s') = S (List.length (pr_torrents s)) /\
    (forall u, (u < List.length (pr_torrents s))%nat -> nth_error (pr_torrents s') u = nth_error (pr_torrents s) u).
Proof.
  intros sha1 p cwd d ops s k x raw i files T ST EX AL HL PB h LK DR DO.
  pose proof PB as [PI PO DE PT P32 C32 PM OD]. pose proof DE as (_ & TL & _ & _ & GD & _).
  destruct (tracker_facts _ _ _ _ _ _ ST) as (_ & TF & _). destruct (TF k x EX) as (EU & _ & _ & _). apply nth_error_In in EU.
  assert (HH : compute_info_hash sha1 i = h) by (unfold compute_info_hash, h; rewrite enc_info_canonical by auto; reflexivity).
  (* the request *)
  set (n0 := List.length (pr_torrents s)). set (r := {| rg_hash := h; rg_torrent := n0 |}).
  assert (A : pr_step sha1 p cwd s (PAdd raw false) = {| pr_torrents := pr_torrents s ++ [sys_init h (pr_disk s)]; pr_interface := pr_interface s ++ [r];
     pr_trackers := pr_trackers s; pr_disk := pr_disk s |}).
  { cbn [pr_step]. pose proof (c54_request p false raw s) as Q. rewrite (c54_hex p raw h LK) in Q. destruct (add_magnet p false raw s) as [a s1].
    destruct Q as (_ & Q1 & Q2 & Q3 & Q4). cbn [snd]. destruct s1 as [a1 a2 a3 a4]. cbn [pr_torrents pr_trackers pr_disk pr_interface] in *. subst. reflexivity. }
  (* to the tracker *)
  set (s1 := pr_step sha1 p cwd s (PAdd raw false)) in *.
  destruct (interface_run sha1 p cwd k (pr_interface s ++ [r]) s1 x) as (B1 & B2 & B3 & B4); [rewrite A; reflexivity|rewrite A; exact EX|exact AL|].
  cbn zeta in *. set (o1 := repeat (PInterface never) (List.length (pr_interface s ++ [r]))) in *. set (s2 := pr_run sha1 p cwd s1 o1) in *.
  destruct (take_run sha1 p cwd k _ s2 _ B4 eq_refl) as (C1 & C2 & C3). cbn [tk_mail tk_url tk_alive tk_jobs] in *. cbn zeta in *.
  set (o2 := repeat (PTake k) (List.length (tk_mail x ++ pr_interface s ++ [r]))) in *. set (s3 := pr_run sha1 p cwd s2 o2) in *.
  (* the lookup *)
  set (jobs := tk_jobs x ++ map Asking (tk_mail x ++ pr_interface s ++ [r])) in *.
  set (j := List.length (tk_jobs x ++ map Asking (tk_mail x ++ pr_interface s))).
  assert (EJ : nth_error jobs j = Some (Asking r)).
  { unfold jobs, j. rewrite app_assoc, (map_app _ (tk_mail x ++ pr_interface s)), app_assoc, nth_error_app2, Nat.sub_diag by lia. reflexivity. }
  destruct (some_lookup (tk_url x) h EU) as (es & LU & LE & PE).
  set (s4 := pr_step sha1 p cwd s3 (PLookup k j some_env)).
  assert (D1 : pr_torrents s4 = pr_torrents s3 /\ pr_disk s4 = pr_disk s3 /\ exists y, nth_error (pr_trackers s4) k = Some y /\ nth_error (tk_jobs y) j = Some (Reporting r es)).
  { unfold s4. cbn [pr_step with_trackers pr_torrents pr_disk pr_trackers]. split; [auto|]. split; [auto|]. eexists.
    split; [rewrite nth_update, Nat.eqb_refl, C3; cbn [option_map tk_jobs tk_url]; rewrite EJ; cbn [rg_hash r]; rewrite LU; reflexivity|].
    cbn [set_jobs tk_jobs]. rewrite nth_update, Nat.eqb_refl, EJ. reflexivity. }
  destruct D1 as (D1 & D2 & y & D3 & D4).
  assert (T4 : pr_torrents s4 = pr_torrents s ++ [sys_init h (pr_disk s)]) by (rewrite D1, C1, B1, A; reflexivity).
  assert (K4 : pr_disk s4 = pr_disk s) by (rewrite D2, C2, B2, A; reflexivity).
  assert (SH4 : shows s4 n0 (sys_init h (pr_disk s))).
  { exists (sys_init h (pr_disk s)). rewrite T4, nth_error_app2 by (unfold n0; lia). unfold n0. rewrite Nat.sub_diag. split; [reflexivity|]. rewrite K4. reflexivity. }
  (* the reports *)
  destruct (report_run sha1 p cwd k j r es s4 y D3 D4 PE _ SH4) as (E1 & E2 & E3 & E4). cbn [rg_torrent r] in *. cbn zeta in *.
  set (o3 := repeat (PReport k j (fun _ => true)) (List.length es)) in *. set (s5 := pr_run sha1 p cwd s4 o3) in *.
  rewrite <- (map_map endpoint OPeer) in E1. set (eps := map endpoint es) in *.
  assert (EPS : forall ep, In ep eps -> ModelTracker.parse_socket_addr ep <> None) by (intros ep I; apply in_map_iff in I as (e & <- & I); auto).
  assert (LP : List.length eps = 11%nat) by (unfold eps; rewrite map_length; auto).
  destruct eps as [|ep0 eps'] eqn:EE; [discriminate|]. rewrite <- EE in *.
  (* the description *)
  assert (DO5 : description_ok cwd h i (pr_disk s5)) by (rewrite E2, K4; exact DO).
  destruct (collect_ok sha1 i files T cwd (pr_disk s5) ep0 HL PB DO5) as (accept & fuel & net & pid & d' & CI & SV); [apply EPS; rewrite EE; left; reflexivity|].
  fold h in CI, SV. set (o4 := PHandle n0 0 accept fuel net pid id_shuffle). set (s6 := pr_step sha1 p cwd s5 o4).
  assert (OKS : forall k l, Permutation (id_shuffle k l) l) by (intros ? l; apply Permutation_refl).
  set (z := sys_run sha1 p cwd (sys_init h d') (map OPeer eps ++ [OHandle 0 (Ret (Some i)) id_shuffle])).
  assert (F : shows s6 n0 z /\ only_torrent n0 s5 s6).
  { destruct (reports_run sha1 p cwd eps (sys_init h (pr_disk s))) as (G1 & G2 & G3 & _). cbn zeta in *.
    destruct E1 as (w & W1 & W2).
    assert (P6 : s6 = torrent_step sha1 p cwd (with_disk s5 d') n0 (OHandle 0 (Ret (Some i)) id_shuffle)).
    { unfold s6, o4. cbn [pr_step]. rewrite W1.
      assert (W3 : sy_mail w = map PeerFound eps) by (change (sy_mail w) with (sy_mail (set_disk (pr_disk s5) w)); rewrite W2, G1; reflexivity).
      assert (W4 : sy_actor w = torrent_actor_new h) by (change (sy_actor w) with (sy_actor (set_disk (pr_disk s5) w)); rewrite W2, G2; reflexivity).
      assert (W5 : sy_dead w = false) by (change (sy_dead w) with (sy_dead (set_disk (pr_disk s5) w)); rewrite W2, G3; reflexivity).
      rewrite W3, W4, W5, EE. cbn [map nth_error torrent_actor_new ta_info ta_info_hash]. rewrite CI. reflexivity. }
    assert (SH5 : shows (with_disk s5 d') n0 (sys_run sha1 p cwd (sys_init h d') (map OPeer eps))).
    { exists w. split; [exact W1|]. cbn [with_disk pr_disk]. change (sys_init h d') with (set_disk d' (sys_init h (pr_disk s))). rewrite <- reports_disk, <- W2. reflexivity. }
    destruct (torrent_shows sha1 p cwd _ _ _ (OHandle 0 (Ret (Some i)) id_shuffle) SH5) as [S6 O6]. rewrite <- P6 in *.
    split; [|exact O6]. unfold z. rewrite ProofSystem.run_app. exact S6. }
  destruct F as [SH6 ON6].
  assert (OD' : only_downloads cwd (pr_disk s) d') by (apply collect_only in CI; rewrite E2, K4 in CI; exact CI).
  assert (DR' : disk_ready cwd files d') by (eapply ready_only; eauto).
  assert (PRE : Forall pop_ok (o1 ++ o2 ++ PLookup k j some_env :: o3 ++ [o4])).
  { apply Forall_app. split; [apply Forall_forall; intros o I; apply repeat_spec in I as ->; exact Logic.I|].
    apply Forall_app. split; [apply Forall_forall; intros o I; apply repeat_spec in I as ->; exact Logic.I|].
    constructor; [exact Logic.I|]. apply Forall_app. split; [apply Forall_forall; intros o I; apply repeat_spec in I as ->; exact Logic.I|].
    constructor; [exact OKS|constructor]. }
  assert (R6 : forall more, pr_run sha1 p cwd s (PAdd raw false :: (o1 ++ o2 ++ PLookup k j some_env :: o3 ++ [o4]) ++ more) = pr_run sha1 p cwd s6 more).
  { intros more. rewrite prun_cons. fold s1. rewrite !ProofMain.run_app. fold s2. fold s3. rewrite prun_cons. fold s4.
    rewrite ProofMain.run_app. fold s5. reflexivity. }
  (* the frame, whatever torrent n0 does from here *)
  assert (FRAME : forall s', only_torrent n0 s6 s' -> List.length (pr_torrents s') = S n0 /\
     (forall u, (u < n0)%nat -> nth_error (pr_torrents s') u = nth_error (pr_torrents s) u)).
  { intros s' (_ & _ & X3 & X4). destruct ON6 as (_ & _ & Y3 & Y4). split.
    - rewrite X3, Y3, E3, T4, app_length. cbn [List.length]. unfold n0. lia.
    - intros u U. rewrite X4, Y4, E4, T4, nth_error_app1 by (unfold n0 in *; lia). reflexivity. }
  assert (FIN : forall s' zz, only_torrent n0 s6 s' -> shows s' n0 zz ->
     (forall j f, nth_error files j = Some f -> (0 < f_length f)%N -> sy_disk zz (cwd ++ f_path f) = Some (NFile (file_content T files j f))) ->
     (forall l, unrelated cwd files l -> sy_disk zz l = d' l) ->
     (forall j f, nth_error files j = Some f -> (0 < f_length f)%N -> pr_disk s' (cwd ++ f_path f) = Some (NFile (file_content T files j f))) /\
     pr_disk s' (in_downloads cwd (encode_binary h)) = Some (NFile (js_info i)) /\
     (forall l, unrelated cwd files l -> ~ in_saved cwd l -> pr_disk s' l = pr_disk s l) /\
     List.length (pr_torrents s') = S n0 /\ (forall u, (u < n0)%nat -> nth_error (pr_torrents s') u = nth_error (pr_torrents s) u)).
  { intros s' zz ON SH FI UN. rewrite (shows_disk _ _ _ SH) in FI, UN. split; [exact FI|]. split; [rewrite UN; [exact SV|apply unrelated_description; auto]|].
    split; [|apply FRAME; auto]. intros l U NI. rewrite UN by auto. apply OD'. auto. }
  destruct T as [|b T'] eqn:ET.
  - exists (o1 ++ o2 ++ PLookup k j some_env :: o3 ++ [o4]). split; [exact PRE|]. cbn zeta.
    rewrite <- (app_nil_r (o1 ++ o2 ++ PLookup k j some_env :: o3 ++ [o4])), R6. apply (FIN s6 z); [apply only_refl|exact SH6| |].
    + intros j0 f Hf Lf. rewrite (empty_files files j0 f TL Hf) in Lf. lia.
    + intros l _. unfold z. rewrite ProofSystem.run_app, run_one.
      destruct (reports_run sha1 p cwd eps (sys_init h d')) as (_ & _ & _ & _ & G5 & _). cbn zeta in *. cbn [sys_init sy_disk] in G5.
      rewrite handle_disk, G5. reflexivity.
  - rewrite <- ET in *. assert (NT : T <> []) by (rewrite ET; discriminate).
    assert (L10 : (10 < lenN eps)%N) by (unfold lenN; rewrite LP; lia).
    destruct (opening_run sha1 p cwd h d' i files T eps DE NT L10) as (OO & OI & OW & OR & OT & OK6). cbn zeta in *.
    assert (SP : sys_run sha1 p cwd (sys_init h d') (opening_ops i eps) = sys_run sha1 p cwd z (repeat no_found (List.length eps - 1))).
    { unfold z, opening_ops. rewrite <- ProofSystem.run_app, <- app_assoc. reflexivity. }
    set (q := sys_run sha1 p cwd (sys_init h d') (opening_ops i eps)) in *.
    assert (RQ : reached sha1 p cwd h d' q) by (exists (opening_ops i eps); split; [exact OO|reflexivity]).
    assert (NR : Forall not_report (repeat no_found (List.length eps - 1))) by (apply Forall_forall; intros o I; apply repeat_spec in I as ->; intros ep; discriminate).
    assert (RZ : reported z = eps).
    { unfold z. rewrite ProofSystem.run_app, run_one.
      destruct (reports_run sha1 p cwd eps (sys_init h d')) as (G1 & G2 & G3 & _ & _ & G6). cbn zeta in *. cbn [sys_init sy_mail sy_actor sy_dead sy_trace app] in *.
      set (zz := sys_run sha1 p cwd (sys_init h d') (map OPeer eps)) in *. clearbody zz. cbn [sys_step]. rewrite G1, G2, G3, EE. cbn [map nth_error handle]. unfold handle_peer_found.
      cbn [torrent_actor_new ta_info obind]. rewrite (describes_total _ p _ _ _ DE). cbn [obind]. unfold get_piece_length. rewrite step_by_count by (destruct DE; tauto).
      cbn [obind]. unfold reported. cbn [sy_trace sy_mail remove_nth]. rewrite G6. cbn. f_equal. clear. induction eps' as [|e l IH]; [reflexivity|]. cbn. f_equal. exact IH. }
    assert (RE : forall ep, In ep (reported q) -> ModelTracker.parse_socket_addr ep <> None).
    { intros ep I. apply EPS. rewrite <- RZ. rewrite SP in I. eapply reported_run; eauto. }
    destruct (honest_torrent sha1 p cwd h d' q i files T RQ OR OI DE DR' OW HL PT P32 C32 RE OT) as (ops2 & FO2 & FN2 & FI & UN). cbn zeta in *.
    exists ((o1 ++ o2 ++ PLookup k j some_env :: o3 ++ [o4]) ++ map (lift n0) (repeat no_found (List.length eps - 1) ++ ops2)).
    split. { apply Forall_app. split; [exact PRE|]. apply lift_ok. apply Forall_app. split; [|exact FO2].
      apply Forall_forall; intros o I; apply repeat_spec in I as ->; exact OKS. }
    cbn zeta. rewrite R6.
    assert (ZI : ta_info (sy_actor z) = Some i).
    { unfold z. rewrite ProofSystem.run_app, run_one.
      destruct (reports_run sha1 p cwd eps (sys_init h d')) as (G1 & G2 & G3 & _ & _ & G6). cbn zeta in *. cbn [sys_init sy_mail sy_actor sy_dead sy_trace app] in *.
      set (zz := sys_run sha1 p cwd (sys_init h d') (map OPeer eps)) in *. clearbody zz. cbn [sys_step]. rewrite G1, G2, G3, EE. cbn [map nth_error handle]. unfold handle_peer_found.
      cbn [torrent_actor_new ta_info obind]. rewrite (describes_total _ p _ _ _ DE). cbn [obind]. unfold get_piece_length. rewrite step_by_count by (destruct DE; tauto). reflexivity. }
    destruct (lift_run sha1 p cwd n0 i (repeat no_found (List.length eps - 1) ++ ops2) s6 z SH6 ZI) as [SH7 ON7]; [apply Forall_app; auto|]. cbn zeta in *.
    rewrite ProofSystem.run_app, <- SP in SH7. eapply FIN; eauto.
Qed.

(** ** C63 *)

Lemma c63_rest : forall sha1 p cwd F T d ops s, started sha1 p cwd d ops s ->
  apart (List.length (pr_torrents s)) F T -> (forall t, (t < List.length (pr_torrents s))%nat -> disk_ready cwd (F t) d) ->
  told sha1 F T s ->
  some_collision sha1 T s \/
  forall t x i, nth_error (pr_torrents s) t = Some x -> ta_info (sy_actor x) = Some i ->
    requested (sy_trace x) <> [] -> sy_workers x = 5%nat -> at_rest x -> complete_on cwd (F t) (T t) (pr_disk s).
Proof.
  intros sha1 p cwd F T d ops s R AP DR TD. destruct (c58_disk _ _ _ _ _ _ _ _ R AP DR TD) as [C|[G _]]; [auto|]. right.
  intros t x i H EI RQ W5 (M & Q & K & WQ). pose proof (TD t x i H EI) as DE.
  destruct (G t x H) as (_ & _ & _ & GI). destruct (GI i EI) as [_ ALL]. unfold complete_on. intros k f Hk L. apply ALL; auto. clear ALL GI G.
  destruct (c58_alone _ _ _ _ _ _ R t x H) as (h & s0 & _ & R0 & (A1 & A2 & A3 & A4 & A5 & A6 & A7)).
  assert (FL : in_flight s0 = []) by (unfold in_flight; rewrite A3, A4, A5, M, Q, K; reflexivity).
  assert (WT : waiting s0 = []). { apply (proj2 (c40 _ _ _ _ _ _ R0)); [rewrite A7; auto|]. rewrite FL, A6, W5. cbn. lia. }
  intros idx LI. unfold written. rewrite WQ. cbn [List.length]. rewrite Nat.sub_0_r, firstn_all.
  pose proof (c39 _ _ _ _ _ _ R0) as C. rewrite A1, EI in C. destruct C as (n & _ & PO & _).
  pose proof (c41_done _ _ _ _ _ _ _ _ R0 (eq_trans (f_equal ta_info A1) EI) PO (eq_trans A6 W5) WT FL) as PM.
  unfold completed in PM. rewrite A7 in PM.
  apply (Permutation_in idx (Permutation_sym PM)). apply in_numbers. rewrite (describes_count sha1 p i (F t) (T t) n DE PO). auto.
Qed.

Lemma bounded_or : forall (A B : nat -> Prop) n, (forall t, (t < n)%nat -> A t \/ B t) ->
  (exists t, (t < n)%nat /\ A t) \/ (forall t, (t < n)%nat -> B t).
Proof.
  intros A B n. induction n as [|n IH]; intros H.
  - right. lia.
  - destruct IH as [(t & L & X)|X]; [intros t L; apply H; lia|left; exists t; split; [lia|auto]|].
    destruct (H n) as [Y|Y]; [lia|left; exists n; split; [lia|auto]|].
    right. intros t L. destruct (Nat.eq_dec t n) as [->|NE]; [auto|apply X; lia].
Qed.

Lemma complete_holds : forall cwd files T d g, complete_on cwd files T d -> holds cwd files T d g.
Proof.
  intros cwd files T d g H k f Hk L. exists (file_content T files k f). split; [apply H; auto; lia|].
  unfold file_content. rewrite nth_error_range by lia. f_equal. lia.
Qed.

Lemma c63_stays : forall sha1 p cwd F T d ops s files C, started sha1 p cwd d ops s ->
  apart (List.length (pr_torrents s)) F T -> (forall t, (t < List.length (pr_torrents s))%nat -> disk_ready cwd (F t) d) ->
  told sha1 F T s ->
  good_files files -> outside_downloads files -> total_length files = lenN C ->
  (forall t, (t < List.length (pr_torrents s))%nat -> (F t = files /\ T t = C) \/ disjoint (F t) files) ->
  complete_on cwd files C d -> some_collision sha1 T s \/ complete_on cwd files C (pr_disk s).
Proof.
  intros sha1 p cwd F T d ops s files C R AP DR TD GF OD TL SD CO. destruct (c58_disk _ _ _ _ _ _ _ _ R AP DR TD) as [X|[G U]]; [auto|]. right.
  destruct (bounded_or _ _ _ SD) as [(t & L & <- & <-)|DJ].
  - destruct (nth_error (pr_torrents s) t) as [x|] eqn:E; [|apply nth_error_None in E; lia].
    destruct (G t x E) as (_ & R' & K & _). intros k f Hk Lf. apply all_held; auto. intros g _. apply K. apply complete_holds. auto.
  - intros k f Hk Lf. pose proof (nth_error_In _ _ Hk) as I. rewrite U; [apply CO; auto| |].
    + intros t L. eapply disjoint_unrelated; [apply DJ; auto|auto|]. eapply path_nonempty; eauto.
    + intros [r X]. rewrite <- app_assoc in X. apply app_inv_head in X. apply (OD f I). rewrite X. reflexivity.
Qed.
