(** ProofSeeds: proofs for PropSeeds *)
From Coq Require Import Permutation Lia.
From Verif Require Import Base Utf8 ModelBencode ModelMessages ModelTorrent ModelWriter ModelTracker ModelStream ModelPeer ModelLive
  ModelActors ModelCache ModelMain ProofBase SpecTorrent SpecWriter ProofWriter SpecPieces ProofPieces SpecPeer ProofPeer SpecSystem ProofSystem SpecSession ProofSession SpecMain ProofMain
  SpecWhole ProofWhole SpecForever ProofForever SpecLive ProofLive ProofAnswers SpecSeeds.

(** ** The order of the requests *)

Definition failed_of (m : tmsg) : list N := match m with PieceDownloadFailed _ idx => [idx] | _ => [] end.

Lemma failed_pieces_app : forall tr m es, failed_pieces (tr ++ Handled m :: map Sent es) = failed_pieces tr ++ failed_of m.
Proof. intros. unfold failed_pieces. rewrite trace_app_handled, flat_map_app. cbn [flat_map]. rewrite app_nil_r. reflexivity. Qed.

(** A message handled while the metadata is known takes from the front of the pool and puts at its end. *)
Lemma handle_pool : forall p found shuffle a m a' es i q, (forall k l, Permutation (shuffle k l) l) ->
  handle p found shuffle a m = Ret (a', es) -> ta_info a = Some i -> ta_pool a = Some q ->
  exists q', ta_pool a' = Some q' /\ map rq_idx (requests_of es) ++ q' = q ++ failed_of m.
Proof.
  intros p found shuffle a m a' es i q SH H EI EP. destruct m as [ep|ep piece idx|ep idx]; cbn [handle failed_of] in *.
  - unfold handle_peer_found in H. rewrite EI in H. destruct (_ && _).
    + rewrite EP in H. cbn [unwrap obind] in H.
      destruct (initial_spec 5 0 shuffle i (ta_peers a ++ [apeer_new ep]) q (ta_initiated a) SH) as (es' & E & _ & RQ & _);
        [intros X; apply app_eq_nil in X as [_ X]; discriminate|]. rewrite E in H. cbn [obind] in H. injection H as <- <-.
      exists (skipn 5 q). split; [reflexivity|]. rewrite RQ, app_nil_r. apply firstn_skipn.
    + injection H as <- <-. exists q. rewrite app_nil_r. auto.
  - unfold handle_success in H. rewrite EI in H. cbn [unwrap obind] in H. apply obind_ret in H as (fs & _ & H). rewrite EP in H. cbn [unwrap obind] in H.
    destruct q as [|x q]; cbn [pool_pop] in H; injection H as <- <-.
    + exists []. auto.
    + exists q. rewrite app_nil_r. auto.
  - unfold handle_failed in H. rewrite EP in H. cbn [unwrap obind] in H. apply obind_ret in H as (e & _ & H). unfold pool_insert in H.
    destruct q as [|x q]; cbn [app pool_pop] in H; rewrite EI in H; cbn [unwrap obind] in H; injection H as <- <-; eexists; split; reflexivity.
Qed.

Lemma c83_order : forall sha1 p cwd ih d s i n, reached sha1 p cwd ih d s -> ta_info (sy_actor s) = Some i -> pieces_of p i n ->
  map rq_idx (requested (sy_trace s)) ++ waiting s = numbers n ++ failed_pieces (sy_trace s).
Proof.
  intros sha1 p cwd ih d s i n R EI PO. revert s R i n EI PO.
  enough (G : forall s, reached sha1 p cwd ih d s -> match ta_info (sy_actor s) with
    | None => failed_pieces (sy_trace s) = []
    | Some i => forall n, pieces_of p i n -> map rq_idx (requested (sy_trace s)) ++ waiting s = numbers n ++ failed_pieces (sy_trace s) end).
  { intros s R i n EI PO. specialize (G s R). rewrite EI in G. auto. }
  refine (reached_ind sha1 p cwd ih d _ _ _); [reflexivity|]. intros s o R OK IH.
  pose proof (inv_reached _ _ _ _ _ _ R) as I. unfold inv in I.
  destruct (step_trace sha1 p cwd s o) as [[ET EA]|(k & found & shuffle & m & a & es & EO & D & Hm & EH & ET & EA & _)].
  - unfold waiting in *. rewrite ET, EA. exact IH.
  - unfold waiting in *. rewrite ET, EA. rewrite failed_pieces_app, trace_app_requested, map_app. subst o. cbn [op_ok] in OK.
    destruct (ta_info (sy_actor s)) as [i|] eqn:EI.
    + destruct I as (_ & _ & n & files & q & lost & PO & GF & EP & _).
      assert (EI' : ta_info a = Some i).
      { pose proof (step_info sha1 p cwd ih d s (OHandle k found shuffle) i R EI) as X. rewrite EA in X. exact X. }
      rewrite EI'. intros n' PO'. specialize (IH n' PO'). rewrite EP in IH.
      destruct (handle_pool _ _ _ _ _ _ _ _ _ OK EH EI EP) as (q' & EQ & E). rewrite EQ, <- app_assoc, E, !app_assoc, IH. reflexivity.
    + destruct I as (E1 & E2 & E3 & E4 & E5 & E6 & E7 & _). rewrite IH, E7. cbn [map app].
      assert (FM : failed_of m = []).
      { destruct m as [| |ep idx]; auto. exfalso. apply nth_error_In in Hm. assert (X : In idx (flat_map answer_for (sy_mail s))); [|rewrite E5 in X; exact X].
        apply in_flat_map. eexists. split; [exact Hm|]. left. reflexivity. }
      rewrite FM. destruct m as [ep|ep piece idx|ep idx]; cbn [handle] in EH.
      * unfold handle_peer_found in EH. rewrite EI in EH. apply obind_ret in EH as (f & _ & EH). destruct f as [i|].
        -- apply obind_ret in EH as (total & GT & EH). apply obind_ret in EH as (count & SB & EH). injection EH as <- <-. cbn [ta_info ta_pool].
           intros n (total' & GT' & P & ->). rewrite GT in GT'. injection GT' as <-. destruct (step_by_inv _ _ _ SB) as [_ ->]. rewrite app_nil_r. reflexivity.
        -- injection EH as <- <-. reflexivity.
      * unfold handle_success in EH. rewrite EI in EH. discriminate.
      * discriminate.
Qed.

(** ** Peers that answer *)

(** What a step of the process is for torrent number [u]; only [PFinish] ends a download. *)
Lemma finish_cases : forall sha1 p cwd s o u x', pop_ok o ->
  nth_error (pr_torrents (pr_step sha1 p cwd s o)) u = Some x' ->
  nth_error (pr_torrents s) u = Some x' \/
  (exists x D o', nth_error (pr_torrents s) u = Some x /\ op_ok o' /\ x' = sys_step sha1 p cwd (set_disk D x) o' /\
     (forall k net pid fuel, o' = OFinish k net pid fuel -> o = PFinish u k net pid fuel)) \/
  (exists h, x' = sys_init h (pr_disk s)).
Proof.
  intros sha1 p cwd s o u x' OK H.
  assert (T : forall s0 t o1, pr_torrents s0 = pr_torrents s -> op_ok o1 -> (forall k net pid fuel, o1 = OFinish k net pid fuel -> o = PFinish t k net pid fuel) ->
      nth_error (pr_torrents (torrent_step sha1 p cwd s0 t o1)) u = Some x' -> nth_error (pr_torrents s) u = Some x' \/
      (exists x D o', nth_error (pr_torrents s) u = Some x /\ op_ok o' /\ x' = sys_step sha1 p cwd (set_disk D x) o' /\
        (forall k net pid fuel, o' = OFinish k net pid fuel -> o = PFinish u k net pid fuel)) \/ (exists h, x' = sys_init h (pr_disk s))).
  { intros s0 t o1 E0 O1 NF H1. rewrite torrent_nth, E0 in H1. destruct (u =? t)%nat eqn:U; [|auto]. apply Nat.eqb_eq in U as ->.
    destruct (nth_error (pr_torrents s) t) as [x|]; [|discriminate]. cbn [option_map] in H1. injection H1 as <-. right. left. exists x, (pr_disk s0), o1. auto. }
  destruct o as [raw full|full|k|k j e|k j connects|t k accept fuel net pid shuffle|t|t k net pid fuel|t]; cbn [pr_step pop_ok] in *.
  - destruct (torrent_cases sha1 p cwd s (PAdd raw full) u x' OK H) as [[E _]|[(x & D & o' & E & O' & EX & _)|(r & f & h & _ & _ & _ & E)]]; [auto| |right; right; eauto].
    destruct (add_cases p full raw s) as [(h & A & _ & E')|(A & _ & E')]; rewrite E' in H; [|auto]. cbn [pr_torrents] in H.
    rewrite nth_error_app1 in H; [auto|]. apply nth_error_Some. congruence.
  - destruct (pr_interface s); auto.
  - auto.
  - auto.
  - destruct (nth_error (pr_trackers s) k) as [x|]; [|auto]. destruct (nth_error (tk_jobs x) j) as [[r|r [|e rest]]|]; auto.
    destruct (is_reachable connects (endpoint e)); [|auto]. eapply T; [| | |exact H]; [reflexivity|exact I|discriminate].
  - destruct (nth_error (pr_torrents s) t) as [x|]; [|auto].
    assert (G : forall s0 found, pr_torrents s0 = pr_torrents s -> nth_error (pr_torrents (torrent_step sha1 p cwd s0 t (OHandle k found shuffle))) u = Some x' ->
      nth_error (pr_torrents s) u = Some x' \/ (exists x D o', nth_error (pr_torrents s) u = Some x /\ op_ok o' /\ x' = sys_step sha1 p cwd (set_disk D x) o' /\
        (forall k0 net0 pid0 fuel0, o' = OFinish k0 net0 pid0 fuel0 -> PHandle t k accept fuel net pid shuffle = PFinish u k0 net0 pid0 fuel0)) \/
      (exists h, x' = sys_init h (pr_disk s))).
    { intros s0 found E0 H0. eapply T; [exact E0| | |exact H0]; [exact OK|discriminate]. }
    destruct (nth_error (sy_mail x) k) as [[]|]; try (eapply G; [|exact H]; reflexivity).
    destruct (ta_info (sy_actor x)); try (eapply G; [|exact H]; reflexivity).
    destruct (sy_dead x); try (eapply G; [|exact H]; reflexivity).
    destruct (collect_info accept fuel cwd (pr_disk s) net pid (ta_info_hash (sy_actor x)) ep) as [[found d]| |];
      try (eapply G; [|exact H]; reflexivity). auto.
  - eapply T; [| | |exact H]; [reflexivity|exact I|discriminate].
  - eapply T; [| | |exact H]; [reflexivity|exact I|]. intros k' net' pid' fuel' Q. injection Q as <- <- <- <-. reflexivity.
  - eapply T; [| | |exact H]; [reflexivity|exact I|discriminate].
Qed.

(** Torrents that have lost no worker, seen no failure and received nothing but the right data. *)
Definition spotless (T : bytes) (x : sys) : Prop :=
  sy_workers x = 5%nat /\ failed_so_far x = 0%N /\ forall i, ta_info (sy_actor x) = Some i -> truthful (i_piece_length i) T x.

(** A step that is no end of a download. *)
Lemma failed_other : forall sha1 p cwd x o, (forall k net pid fuel, o <> OFinish k net pid fuel) ->
  sy_workers (sys_step sha1 p cwd x o) = sy_workers x /\ (failed_so_far (sys_step sha1 p cwd x o) <= failed_so_far x)%N.
Proof.
  intros sha1 p cwd x o NF. unfold failed_so_far. destruct o as [ep|k found shuffle| |k net pid fuel|]; cbn [sys_step].
  - cbn [sy_workers sy_trace sy_mail]. split; [auto|]. rewrite app_assoc, failed_app. cbn. lia.
  - destruct (sy_dead x); [split; [auto|lia]|]. destruct (nth_error (sy_mail x) k) as [m|] eqn:Hm; [|split; [auto|lia]].
    pose proof (filter_perm _ (fun m => match m with PieceDownloadFailed _ _ => true | _ => false end) _ _ (remove_perm _ _ _ _ Hm)) as P.
    apply Permutation_length in P. change (m :: remove_nth k (sy_mail x)) with ([m] ++ remove_nth k (sy_mail x)) in P. rewrite filter_app, app_length in P.
    destruct (handle p found shuffle (sy_actor x) m) as [[a es]| |]; cbn [sy_workers sy_trace sy_mail]; (split; [auto|]); [| |lia].
    + rewrite handled_app, handled_sent, <- app_assoc, !failed_app. unfold lenN. lia.
    + rewrite !failed_app. unfold lenN. lia.
  - destruct (sy_queue x); [split; [auto|lia]|]. destruct (List.length (sy_working x) <? sy_workers x)%nat; cbn [sy_workers sy_trace sy_mail]; (split; [auto|lia]).
  - exfalso. eapply NF; reflexivity.
  - destruct (sy_writer_dead x); [split; [auto|lia]|]. destruct (sy_writer x); [split; [auto|lia]|].
    destruct (write _ _ _ _ _ _ _); cbn [sy_workers sy_trace sy_mail]; (split; [auto|lia]).
Qed.

(** A worker's request is for a piece of the torrent, from a peer that was reported. *)
Lemma working_known : forall sha1 p cwd d ops s t x k r, started sha1 p cwd d ops s -> nth_error (pr_torrents s) t = Some x ->
  nth_error (sy_working x) k = Some r ->
  exists i n, ta_info (sy_actor x) = Some i /\ pieces_of p i n /\ rq_info r = i /\ (rq_idx r < n)%N /\ In (rq_endpoint r) (reported x).
Proof.
  intros sha1 p cwd d ops s t x k r R H Hr. destruct (c58_alone _ _ _ _ _ _ R t x H) as (h & s0 & _ & R0 & (A1 & A2 & A3 & A4 & A5 & A6 & A7)).
  pose proof (inv_reached _ _ _ _ _ _ R0) as I. unfold inv in I. rewrite <- A5 in Hr. pose proof (nth_error_In _ _ Hr) as IW. rewrite <- A1.
  destruct (ta_info (sy_actor s0)) as [i|]; [|destruct I as (_ & _ & _ & E & _); rewrite E in IW; destruct IW].
  destruct I as (_ & _ & n & files & q & lost & PO & _ & _ & PM & _ & _ & _ & FQ & _).
  exists i, n. split; [auto|]. split; [auto|]. split; [rewrite Forall_forall in FQ; apply FQ; apply in_or_app; auto|]. split.
  - apply in_numbers. apply (Permutation_in _ PM). apply in_or_app. right. apply in_or_app. left. unfold in_flight. apply in_or_app. right. apply in_or_app. left.
    apply in_map. auto.
  - unfold reported. rewrite <- A3, <- A7, found_app. apply in_or_app. left. rewrite <- (proj1 (c45 _ _ _ _ _ _ R0)).
    apply (known_endpoints _ _ _ _ _ _ R0). apply in_or_app. left. apply in_map. apply in_or_app. right. apply in_or_app. left. auto.
Qed.

(** Only endpoints that can be connected to are reported. *)
Lemma reported_parse : forall sha1 p cwd d ops s, started sha1 p cwd d ops s -> forall t x ep, nth_error (pr_torrents s) t = Some x ->
  In ep (reported x) -> parse_socket_addr ep <> None.
Proof.
  intros sha1 p cwd d. apply (started_ind sha1 p cwd d (fun ops s => forall t x ep, nth_error (pr_torrents s) t = Some x ->
    In ep (reported x) -> parse_socket_addr ep <> None)).
  - intros t x ep H. destruct t; discriminate.
  - intros ops s o R OK IH t x' ep H I.
    destruct (torrent_cases sha1 p cwd s o t x' OK H) as [[E _]|[(x & D & o' & E & O' & -> & NM & _)|(raw & full & h & _ & _ & _ & ->)]]; [eauto| |destruct I].
    assert (PR : forall e, In e (peer_reports [o']) -> parse_socket_addr e <> None).
    { intros e Ie. rewrite NM in Ie. unfold new_mail in Ie. destruct o; try destruct Ie. destruct (nth_error (pr_trackers s) k) as [y|]; [|destruct Ie].
      destruct (nth_error (tk_jobs y) j) as [[r|r [|e' rest]]|]; try destruct Ie. destruct (_ && _) eqn:C; [|destruct Ie]. apply andb_prop in C as [_ C].
      destruct Ie as [<-|[]]. unfold is_reachable in C. intros X. rewrite X in C. discriminate C. }
    destruct o' as [e|k found shuffle| |k net pid fuel|]; [|eapply IH; [exact E|]; refine (ProofSystem.reported_step sha1 p cwd (set_disk D x) _ _ ep I); intros; discriminate..].
    unfold reported in I. cbn [sys_step sy_trace sy_mail set_disk] in I. rewrite app_assoc, found_app in I. apply in_app_iff in I as [I|I]; [eapply IH; [exact E|exact I]|].
    apply PR. exact I.
Qed.

(** A download from a server that has everything brings the piece. *)
Lemma served_download : forall sha1 p fuel v pid ep i idx files T, (forall b, List.length (sha1 b) = 20%nat) ->
  describes sha1 i files T -> well_shaped i T -> has_all sha1 i T v -> List.length pid = 20%nat ->
  (11 + 10 * N.to_nat (piece_count (i_piece_length i) 16384) <= fuel)%nat ->
  parse_socket_addr ep <> None -> (idx < piece_count (lenN T) (i_piece_length i))%N ->
  download_l serving (server_hears v) server_says sha1 p fuel [] newly pid ep i idx = Ret (Ok (torrent_piece T (i_piece_length i) idx)).
Proof.
  intros sha1 p fuel v pid ep i idx files T HL DE (AL & P32 & O & C32) (IH & WE & NB & HP) LP LF EP I. pose proof DE as (_ & _ & _ & PP & _ & HS).
  specialize (HS idx I). specialize (HP idx I). pose proof (piece_length_of T _ _ PP I) as PL. rewrite <- HP in *.
  assert (LS : (20 * N.to_nat idx + 20 <= List.length (i_pieces i))%nat).
  { pose proof (HL (sd_piece v idx)) as LL. rewrite <- HS, firstn_length, skipn_length in LL. lia. }
  apply (c82_piece sha1 p fuel v pid ep i idx (lenN T)); auto; try lia.
  - exact (describes_total _ p _ _ _ DE).
  - destruct AL as [AL|AL]; [auto|]. right. destruct (count_bounds (lenN T) (i_piece_length i) PP) as (B1 & B2 & B3).
    unfold piece_count in *. nia.
  - unfold piece_count in *. rewrite PL. lia.
Qed.

(** The same, of what a worker does. *)
Lemma served_worker : forall sha1 p cwd d ops s t x k r i files T, (forall b, List.length (sha1 b) = 20%nat) -> started sha1 p cwd d ops s ->
  nth_error (pr_torrents s) t = Some x -> nth_error (sy_working x) k = Some r -> ta_info (sy_actor x) = Some i -> describes sha1 i files T ->
  rq_info r = i /\ (rq_idx r < piece_count (lenN T) (i_piece_length i))%N /\ parse_socket_addr (rq_endpoint r) <> None.
Proof.
  intros sha1 p cwd d ops s t x k r i files T HL R H Hr EI DE.
  destruct (working_known _ _ _ _ _ _ _ _ _ _ R H Hr) as (i' & n & EI' & PO & RI & LI & RE). rewrite EI in EI'. injection EI' as <-.
  split; [auto|]. split; [|eapply reported_parse; eauto]. rewrite <- (describes_count sha1 p i files T n DE PO). exact LI.
Qed.

Lemma c83_spotless : forall sha1 p cwd d ops t files T, (forall b, List.length (sha1 b) = 20%nat) -> (forall n, pop_ok (ops n)) ->
  (forall n x i, torrent_at sha1 p cwd d ops t n = Some x -> ta_info (sy_actor x) = Some i -> describes sha1 i files T /\ well_shaped i T) ->
  (forall n, served sha1 p 11 T t (state_at sha1 p cwd d ops n) (ops n)) ->
  forall n x, torrent_at sha1 p cwd d ops t n = Some x -> spotless T x.
Proof.
  intros sha1 p cwd d ops t files T HL OK DE SV. induction n as [|n IH]; intros x' H; [unfold torrent_at in H; destruct t; discriminate|].
  pose proof (state_started sha1 p cwd d ops n OK) as R.
  unfold torrent_at in H. rewrite state_S in H.
  destruct (finish_cases _ _ _ _ _ _ _ (OK n) H) as [E|[(x & D & o' & E & O' & EX & NF)|(h & ->)]]; [auto| |].
  2: { split; [reflexivity|]. split; [reflexivity|]. intros i EI. discriminate. }
  specialize (SV n). destruct (IH x E) as (W5 & F0 & TR).
  assert (IN : forall i, ta_info (sy_actor x) = Some i -> ta_info (sy_actor x') = Some i).
  { intros i EI. destruct (torrent_forward sha1 p cwd _ (ops n) t x E) as (y & HY & EY & _). rewrite H in HY. injection HY as <-. auto. }
  assert (TK : ta_info (sy_actor x) = None -> forall i, ta_info (sy_actor x') = Some i -> truthful (i_piece_length i) T x').
  { intros EN i EI'. destruct (c58_alone _ _ _ _ _ _ R t x E) as (h & s0 & _ & R0 & (A1 & A2 & A3 & A4 & A5 & A6 & A7)).
    pose proof (inv_reached _ _ _ _ _ _ R0) as I. unfold inv in I. rewrite A1, EN in I. destruct I as (_ & _ & _ & EW & EM & ET & _). rewrite A3 in EM. rewrite A7 in ET. rewrite A5 in EW.
    subst x'. apply truthful_step.
    - destruct o' as [e|k found shuffle| |k net pid fuel|]; try exact Logic.I. cbn [honest set_disk sy_working]. rewrite EW. intros r piece X. destruct k; discriminate.
    - split.
      + cbn [set_disk sy_trace]. rewrite ET. intros r [].
      + cbn [set_disk sy_mail]. intros ep piece idx X. exfalso. assert (Y : In idx (flat_map answer_for (sy_mail x))); [|rewrite EM in Y; exact Y].
        apply in_flat_map. eexists. split; [exact X|]. left. reflexivity. }
  assert (HO : forall i, ta_info (sy_actor x) = Some i -> honest sha1 p (i_piece_length i) T (set_disk D x) o').
  { intros i EI. destruct o' as [e|k found shuffle| |k net pid fuel|]; try exact Logic.I. cbn [honest set_disk sy_working]. intros r piece Hr ED.
    rewrite (NF _ _ _ _ eq_refl) in SV. cbn [served] in SV. destruct (SV eq_refl x r E Hr) as (v & HA & LP & LF & EQ). rewrite EQ in ED.
    destruct (DE n x i E EI) as [DEi WS]. destruct (served_worker _ _ _ _ _ _ _ _ _ _ _ _ _ HL R E Hr EI DEi) as (RI & LI & EP).
    rewrite RI in HA, LF, ED. rewrite (served_download sha1 p fuel v pid _ i _ files T HL DEi WS HA LP LF EP LI) in ED. congruence. }
  assert (WF : sy_workers x' = 5%nat /\ failed_so_far x' = 0%N).
  { destruct o' as [e|k found shuffle| |k net pid fuel|].
    4: { rewrite (NF _ _ _ _ eq_refl) in SV. cbn [served] in SV. specialize (SV eq_refl x).
      assert (Z : sys_step sha1 p cwd (set_disk D x) (OFinish k net pid fuel) = set_disk D x \/
        exists r piece, nth_error (sy_working x) k = Some r /\ download sha1 p fuel net pid (rq_endpoint r) (rq_info r) (rq_idx r) = Ret (Ok piece)).
      { cbn [sys_step]. change (sy_working (set_disk D x)) with (sy_working x). destruct (nth_error (sy_working x) k) as [r|] eqn:Hr; [|auto]. right.
        destruct (SV r E eq_refl) as (v & HA & LP & LF & EQ).
        destruct (working_known _ _ _ _ _ _ _ _ _ _ R E Hr) as (i & nn & EI & _).
        destruct (DE n x i E EI) as [DEi WS]. destruct (served_worker _ _ _ _ _ _ _ _ _ _ _ _ _ HL R E Hr EI DEi) as (RI & LI & EP).
        exists r, (torrent_piece T (i_piece_length i) (rq_idx r)). split; [auto|]. rewrite EQ. rewrite RI in HA, LF |- *.
        apply (served_download sha1 p fuel v pid _ i _ files T HL DEi WS HA LP LF EP LI). }
      destruct Z as [Z|(r & piece & Hr & ED)]; [rewrite EX, Z; auto|].
      rewrite EX. cbn [sys_step]. change (sy_working (set_disk D x)) with (sy_working x). rewrite Hr, ED. cbn [set_disk sy_workers sy_mail sy_trace]. split; [auto|].
      unfold failed_so_far in *. cbn [sy_trace sy_mail]. rewrite app_assoc, failed_app, F0. reflexivity. }
    all: match goal with EX : _ = sys_step ?h ?q ?c ?s ?o |- _ => destruct (failed_other h q c s o ltac:(intros; discriminate)) as [Q1 Q2] end;
      rewrite EX; (split; [rewrite Q1; exact W5|]); change (failed_so_far (set_disk D x)) with (failed_so_far x) in Q2; lia. }
  split; [apply WF|]. split; [apply WF|]. intros i' EI'. destruct (ta_info (sy_actor x)) as [i|] eqn:EI; [|auto].
  assert (i' = i) by (specialize (IN i eq_refl); congruence). subst i' x'. apply truthful_step; [apply HO; auto|]. exact (TR i eq_refl).
Qed.

Lemma c83_once : forall sha1 p cwd d ops t files T, (forall b, List.length (sha1 b) = 20%nat) -> (forall n, pop_ok (ops n)) ->
  (forall n x i, torrent_at sha1 p cwd d ops t n = Some x -> ta_info (sy_actor x) = Some i -> describes sha1 i files T /\ well_shaped i T) ->
  (forall n, served sha1 p 11 T t (state_at sha1 p cwd d ops n) (ops n)) ->
  forall n x, torrent_at sha1 p cwd d ops t n = Some x ->
  sy_workers x = 5%nat /\ failed_so_far x = 0%N /\
  forall i, ta_info (sy_actor x) = Some i ->
    (forall r, In r (to_writer (sy_trace x)) -> rd_piece r = torrent_piece T (i_piece_length i) (rd_idx r)) /\
    map rq_idx (requested (sy_trace x)) ++ waiting x = numbers (piece_count (lenN T) (i_piece_length i)).
Proof.
  intros sha1 p cwd d ops t files T HL OK DE SV n x H. destruct (c83_spotless _ _ _ _ _ _ _ _ HL OK DE SV n x H) as (W5 & F0 & TR).
  split; [auto|]. split; [auto|]. intros i EI. split; [apply (TR i EI)|].
  destruct (c58_alone _ _ _ _ _ _ (state_started sha1 p cwd d ops n OK) t x H) as (h & s0 & _ & R0 & (A1 & A2 & A3 & A4 & A5 & A6 & A7)).
  destruct (DE n x i H EI) as [DEi _]. pose proof DEi as (_ & _ & _ & PP & _).
  pose proof (c83_order sha1 p cwd h d s0 i _ R0 (eq_trans (f_equal ta_info A1) EI) (ex_intro _ (lenN T) (conj (describes_total _ p _ _ _ DEi) (conj PP eq_refl)))) as O.
  unfold waiting in *. rewrite A1, A7 in O. rewrite O.
  assert (Z : failed_pieces (sy_trace x) = []); [|rewrite Z; apply app_nil_r].
  unfold failed_so_far in F0. rewrite failed_app in F0. unfold failed_pieces.
  assert (L : lenN (filter (fun m => match m with PieceDownloadFailed _ _ => true | _ => false end) (handled (sy_trace x))) = 0%N) by lia. clear - L.
  induction (handled (sy_trace x)) as [|m l IH]; [reflexivity|]. destruct m; cbn [filter flat_map app] in *; auto. unfold lenN in L. cbn [List.length] in L. lia.
Qed.

Lemma c83_complete : forall sha1 p cwd F T d ops t, (forall b, List.length (sha1 b) = 20%nat) -> (forall n, pop_ok (ops n)) ->
  (forall n, let s := state_at sha1 p cwd d ops n in
     apart (List.length (pr_torrents s)) F T /\ (forall u, (u < List.length (pr_torrents s))%nat -> disk_ready cwd (F u) d) /\ told sha1 F T s) ->
  (forall n x i, torrent_at sha1 p cwd d ops t n = Some x -> ta_info (sy_actor x) = Some i -> well_shaped i (T t)) ->
  (forall n, served sha1 p 11 (T t) t (state_at sha1 p cwd d ops n) (ops n)) ->
  never_stuck sha1 p cwd d ops t ->
  (exists n x, torrent_at sha1 p cwd d ops t n = Some x /\ requested (sy_trace x) <> []) ->
  exists n, forall m, (n <= m)%nat ->
    (exists u x i, u <> t /\ torrent_at sha1 p cwd d ops u m = Some x /\ ta_info (sy_actor x) = Some i /\ collision sha1 (i_piece_length i) (T u) x) \/
    complete_on cwd (F t) (T t) (pr_disk (state_at sha1 p cwd d ops m)).
Proof.
  intros sha1 p cwd F T d ops t HL OK AP WS SV NS RQ.
  assert (DE : forall n x i, torrent_at sha1 p cwd d ops t n = Some x -> ta_info (sy_actor x) = Some i -> describes sha1 i (F t) (T t) /\ well_shaped i (T t)).
  { intros n x i H EI. split; [|eapply WS; eauto]. destruct (AP n) as (_ & _ & TD). exact (TD t x i H EI). }
  pose proof (c83_spotless _ _ _ _ _ _ _ _ HL OK DE SV) as SP.
  destruct (c68 sha1 p cwd F T d ops t 0 OK AP NS) as (n & G); [|exact RQ|].
  { intros n x H. destruct (SP n x H) as (W5 & F0 & _). split; [auto|lia]. }
  exists n. intros m L. destruct (G m L) as [(u & x & i & H & EI & C)|G']; [|auto]. left. exists u, x, i. split; [|auto].
  intros ->. destruct (SP m x H) as (_ & _ & TR). exact (truthful_no_collision _ _ _ _ (TR i EI) C).
Qed.

Lemma c83_all : forall sha1 p cwd F T d ops t, (forall b, List.length (sha1 b) = 20%nat) -> (forall n, pop_ok (ops n)) ->
  (forall n, let s := state_at sha1 p cwd d ops n in
     apart (List.length (pr_torrents s)) F T /\ (forall u, (u < List.length (pr_torrents s))%nat -> disk_ready cwd (F u) d) /\ told sha1 F T s) ->
  (forall u n x i, torrent_at sha1 p cwd d ops u n = Some x -> ta_info (sy_actor x) = Some i -> well_shaped i (T u)) ->
  (forall u n, served sha1 p 11 (T u) u (state_at sha1 p cwd d ops n) (ops n)) ->
  never_stuck sha1 p cwd d ops t ->
  (exists n x, torrent_at sha1 p cwd d ops t n = Some x /\ requested (sy_trace x) <> []) ->
  exists n, forall m, (n <= m)%nat -> complete_on cwd (F t) (T t) (pr_disk (state_at sha1 p cwd d ops m)).
Proof.
  intros sha1 p cwd F T d ops t HL OK AP WS SV NS RQ. destruct (c83_complete sha1 p cwd F T d ops t HL OK AP (WS t) (SV t) NS RQ) as (n & G).
  exists n. intros m L. destruct (G m L) as [(u & x & i & _ & H & EI & C)|G']; [exfalso|auto].
  assert (DE : forall n x i, torrent_at sha1 p cwd d ops u n = Some x -> ta_info (sy_actor x) = Some i -> describes sha1 i (F u) (T u) /\ well_shaped i (T u)).
  { intros n' x' i' H' EI'. split; [|eapply WS; eauto]. destruct (AP n') as (_ & _ & TD). exact (TD u x' i' H' EI'). }
  destruct (c83_spotless _ _ _ _ _ _ _ _ HL OK DE (SV u) m x H) as (_ & _ & TR). exact (truthful_no_collision _ _ _ _ (TR i EI) C).
Qed.

(** ** Pieces that end within a block *)

Lemma served_unaligned : forall sha1 p fuel v pid ep i idx files T, (forall b, List.length (sha1 b) = 20%nat) ->
  describes sha1 i files T -> (i_piece_length i mod 16384 <> 0)%N -> (i_piece_length i < 2 ^ 32)%N -> (lenN T + i_piece_length i <= 2 ^ 64)%N ->
  (piece_count (lenN T) (i_piece_length i) <= 2 ^ 32)%N -> has_all sha1 i T v -> List.length pid = 20%nat ->
  (132 + 10 * N.to_nat (piece_count (i_piece_length i) 16384) <= fuel)%nat ->
  parse_socket_addr ep <> None -> (idx + 1 < piece_count (lenN T) (i_piece_length i))%N ->
  download_l serving (server_hears v) server_says sha1 p fuel [] newly pid ep i idx = Ret (Err (MEPieceDownloadFailure Idle)).
Proof.
  intros sha1 p fuel v pid ep i idx files T HL DE AL P32 O C32 (IH & WE & NB & HP) LP LF EP I. pose proof DE as (_ & _ & _ & PP & _).
  specialize (HP idx ltac:(lia)). pose proof (piece_length_of T _ idx PP ltac:(lia)) as PL. rewrite <- HP in PL.
  destruct (count_bounds (lenN T) (i_piece_length i) PP) as (_ & _ & B). specialize (B (idx + 1)%N I).
  assert (PL' : lenN (sd_piece v idx) = i_piece_length i) by nia.
  apply (c82_unaligned sha1 p fuel v pid ep i idx (lenN T)); auto; try lia.
  - exact (describes_total _ p _ _ _ DE).
  - rewrite PL'. exact LF.
Qed.

(** Answers and completed pieces that are not the last piece. *)
Definition only_last (T : bytes) (x : sys) : Prop := forall i, ta_info (sy_actor x) = Some i ->
  (forall r, In r (to_writer (sy_trace x)) -> (rd_idx r + 1 = piece_count (lenN T) (i_piece_length i))%N) /\
  (forall ep piece idx, In (PieceDownloadSuccessfull ep piece idx) (sy_mail x) -> (idx + 1 = piece_count (lenN T) (i_piece_length i))%N).

Lemma c83_unaligned : forall sha1 p cwd d ops t files T, (forall b, List.length (sha1 b) = 20%nat) -> (forall n, pop_ok (ops n)) ->
  (forall n x i, torrent_at sha1 p cwd d ops t n = Some x -> ta_info (sy_actor x) = Some i -> describes sha1 i files T /\
     (i_piece_length i mod 16384 <> 0)%N /\ (i_piece_length i < 2 ^ 32)%N /\ (lenN T + i_piece_length i <= 2 ^ 64)%N /\
     (piece_count (lenN T) (i_piece_length i) <= 2 ^ 32)%N) ->
  (forall n, served sha1 p 132 T t (state_at sha1 p cwd d ops n) (ops n)) ->
  forall n x i idx, torrent_at sha1 p cwd d ops t n = Some x -> ta_info (sy_actor x) = Some i -> In idx (completed x) ->
    (idx + 1 = piece_count (lenN T) (i_piece_length i))%N.
Proof.
  intros sha1 p cwd d ops t files T HL OK DE SV.
  enough (G : forall n x, torrent_at sha1 p cwd d ops t n = Some x -> only_last T x).
  { intros n x i idx H EI I. apply in_map_iff in I as (r & <- & I). exact (proj1 (G n x H i EI) r I). }
  induction n as [|n IH]; intros x' H; [unfold torrent_at in H; destruct t; discriminate|].
  pose proof (state_started sha1 p cwd d ops n OK) as R. unfold torrent_at in H. rewrite state_S in H.
  destruct (finish_cases _ _ _ _ _ _ _ (OK n) H) as [E|[(x & D & o' & E & O' & EX & NF)|(h & ->)]]; [auto| |intros i EI; discriminate].
  specialize (SV n). pose proof (IH x E) as OL. intros i EI'.
  destruct (c58_alone _ _ _ _ _ _ R t x E) as (h & s0 & _ & R0 & (A1 & A2 & A3 & A4 & A5 & A6 & A7)).
  pose proof (inv_reached _ _ _ _ _ _ R0) as I. unfold inv in I.
  assert (OLx : (forall r, In r (to_writer (sy_trace x)) -> (rd_idx r + 1 = piece_count (lenN T) (i_piece_length i))%N) /\
    (forall ep piece idx, In (PieceDownloadSuccessfull ep piece idx) (sy_mail x) -> (idx + 1 = piece_count (lenN T) (i_piece_length i))%N)).
  { destruct (ta_info (sy_actor x)) as [i0|] eqn:EI.
    - destruct (torrent_forward sha1 p cwd _ (ops n) t x E) as (y & HY & EY & _). rewrite H in HY. injection HY as <-. specialize (EY i0 EI). rewrite EI' in EY.
      injection EY as ->. auto.
    - rewrite A1, EI in I. destruct I as (_ & _ & _ & EW & EM & ET & _). rewrite A3 in EM. rewrite A7 in ET. split.
      + rewrite ET. intros r [].
      + intros ep piece idx X. exfalso. assert (Y : In idx (flat_map answer_for (sy_mail x))); [|rewrite EM in Y; exact Y].
        apply in_flat_map. eexists. split; [exact X|]. left. reflexivity. }
  clear OL. destruct OLx as [TW TM]. subst x'. set (y := set_disk D x) in *.
  change (forall r, In r (to_writer (sy_trace y)) -> (rd_idx r + 1 = piece_count (lenN T) (i_piece_length i))%N) in TW.
  change (forall ep piece idx, In (PieceDownloadSuccessfull ep piece idx) (sy_mail y) -> (idx + 1 = piece_count (lenN T) (i_piece_length i))%N) in TM.
  assert (EW : sy_working y = sy_working x) by reflexivity. assert (EA : sy_actor y = sy_actor x) by reflexivity. clearbody y.
  destruct o' as [e|k found shuffle| |k net pid fuel|]; cbn [sys_step] in *.
  - split; cbn [sy_trace sy_mail]; [exact TW|]. intros ep piece idx X. apply in_app_iff in X as [X|[X|[]]]; [eauto|discriminate].
  - destruct (sy_dead y); [split; auto|]. destruct (nth_error (sy_mail y) k) as [m|] eqn:Hm; [|split; auto].
    assert (TR : forall ep piece idx, In (PieceDownloadSuccessfull ep piece idx) (remove_nth k (sy_mail y)) -> (idx + 1 = piece_count (lenN T) (i_piece_length i))%N).
    { intros ep piece idx X. apply in_remove in X. eauto. }
    destruct (handle p found shuffle (sy_actor y) m) as [[a es]| |] eqn:EH; split; cbn [sy_trace sy_mail]; auto.
    intros r X. rewrite trace_app_writer in X. apply in_app_iff in X as [X|X]; [auto|].
    destruct (ProofWhole.handle_ready _ _ _ _ _ _ _ _ EH X) as (ep & ->). apply nth_error_In in Hm. eauto.
  - destruct (sy_queue y); [split; auto|]. destruct (_ <? _)%nat; split; auto.
  - rewrite EW in *. destruct (nth_error (sy_working x) k) as [r|] eqn:Hr; [|split; auto].
    rewrite (NF _ _ _ _ eq_refl) in SV. cbn [served] in SV. destruct (SV eq_refl x r E Hr) as (v & HA & LP & LF & EQ).
    assert (EI : ta_info (sy_actor x) = Some i).
    { destruct (working_known _ _ _ _ _ _ _ _ _ _ R E Hr) as (i' & nn & EI & _).
      destruct (download _ _ _ _ _ _ _ _) as [[piece|]| |] in EI'; cbn [sy_actor] in EI'; rewrite EA in EI'; exact EI'. }
    destruct (DE n x i E EI) as (DEi & AL & P32 & O64 & C32). destruct (served_worker _ _ _ _ _ _ _ _ _ _ _ _ _ HL R E Hr EI DEi) as (RI & LI & EP).
    destruct (N.eq_dec (rq_idx r + 1) (piece_count (lenN T) (i_piece_length i))) as [LAST|NL].
    + destruct (download _ _ _ _ _ _ _ _) as [[piece|]| |]; [| | |split; auto]; split; cbn [sy_trace sy_mail]; auto;
        intros ep' piece' idx' X; apply in_app_iff in X as [X|X]; eauto; [destruct X as [X|[]]|destruct X as [X|[]]; discriminate|destruct X].
      injection X as <- <- <-. exact LAST.
    + assert (NL' : (rq_idx r + 1 < piece_count (lenN T) (i_piece_length i))%N) by lia. rewrite EQ. rewrite RI in HA, LF |- *.
      rewrite (served_unaligned sha1 p fuel v pid _ i _ files T HL DEi AL P32 O64 C32 HA LP LF EP NL').
      split; cbn [sy_trace sy_mail]; auto. intros ep' piece' idx' X. apply in_app_iff in X as [X|[X|[]]]; [eauto|discriminate].
  - destruct (sy_writer_dead y); [split; auto|]. destruct (sy_writer y); [split; auto|]. destruct (write _ _ _ _ _ _ _); split; auto.
Qed.
