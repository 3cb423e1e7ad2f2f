(** ProofFar: proofs for property C86, sessions with a server at a distance *)
From Verif Require Import Base ModelBencode ModelMessages ModelTorrent ModelTracker ModelStream ModelPeer ModelLive ModelClock ModelTimed
  SpecBencode SpecTorrent SpecMessages SpecStream SpecWriter SpecPieces SpecPeer SpecSession SpecClock SpecLive SpecTimed
  ProofBase ProofTorrent ProofMessages ProofPieces ProofStream ProofPeer ProofSession ProofClock ProofLive ProofServe ProofAnswers ProofTimed.

(** ** A client that waits for messages *)
Definition frames (W : list (N * raw)) : list (N * bytes) := map (fun q => (fst q, frame (fst (snd q)) (snd (snd q)))) W.
Lemma frames_nonempty : forall W, Forall (fun q => snd q <> []) (frames W).
Proof. intros W. apply Forall_forall. intros q I. apply in_map_iff in I as (q' & <- & _). cbn [snd]. apply frame_nonempty. Qed.
Lemma frames_app : forall a b, frames (a ++ b) = frames a ++ frames b.
Proof. intros. apply map_app. Qed.

(** [W] is what [x] has not read yet. *)
Definition meets_raw (x : peer) (c : clocked) (now : N) (W : list (N * bytes)) : Prop :=
  plain (p_stream x) /\ st_wsched (p_stream x) = [] /\ coming (set_stream c (p_stream x)) (p_stream x) now W.
Definition meets (x : peer) (c : clocked) (now : N) (W : list (N * raw)) : Prop := meets_raw x c now (frames W).

Lemma meets_now : forall x c now W, meets_raw x c now W -> ck_now c = now.
Proof. intros x c now W (_ & _ & a & b & _ & _ & (A & _)). exact A. Qed.
Lemma coming_self : forall c s now W, coming c s now W -> coming (set_stream c (ck_stream c)) (ck_stream c) now W.
Proof.
  intros c s now W (a & b & E & F & (A1 & A2 & A3)). exists a, b. split; [exact E|]. split; [exact F|]. split; [exact A1|]. split; [|exact A3].
  cbn [set_stream ck_stream]. rewrite A2. reflexivity.
Qed.
Lemma meets_after : forall x s c now W, plain (p_stream x) -> st_wsched (p_stream x) = [] -> s = p_stream x -> coming c s now W -> meets_raw (with_stream x (ck_stream c)) c now W.
Proof.
  intros x s c now W [P1 P2] WS -> C. pose proof (coming_self _ _ _ _ C) as C'. destruct C as (a & b & _ & _ & (_ & A2 & _)).
  assert (Q : plain (ck_stream c) /\ st_wsched (ck_stream c) = []) by (rewrite A2; repeat split; assumption).
  destruct Q as [Q1 Q2]. split; [exact Q1|]. split; [exact Q2|exact C'].
Qed.
Lemma meets_apply : forall x c now W m, meets_raw x c now W -> meets_raw (apply_message x m) c now W.
Proof. intros x c now W m H. unfold meets_raw. rewrite (proj1 (apply_message_fixed x m)). exact H. Qed.

(** One attempt that brings a message. *)
Lemma timed_attempt : forall x c now t w W, meets x c now ((t, w) :: W) -> (exists m, parsed w m) -> short_body (snd w) -> (t <= now + 100)%N ->
  exists m c1, read_message_t x c = Ret (Some m, with_stream x (ck_stream c1), c1) /\ parsed w m /\
    meets (with_stream x (ck_stream c1)) c1 (read_by now t w W) W.
Proof.
  intros x c now t [id body] W (P & WS & C) (m & l & PM) SB L. cbn [fst snd] in *. cbn [frames map fst snd] in C.
  destruct (attempt_frame _ _ now t id body (frames W) P C SB (frames_nonempty W) L) as (c1 & RD & C1).
  apply (parsed_length _ _ _ (lenN body)) in PM. unfold read_message_t. rewrite RD, PM. cbn [obind res_ok]. eexists. exists c1. split; [reflexivity|].
  split; [exists (lenN body); exact PM|].
  replace (read_by now t (id, body) W) with (frame_read_by now t body (frames W)); [eapply meets_after; eauto|].
  unfold frame_read_by, read_by. cbn [snd]. destruct body; [|reflexivity]. unfold wait_next. destruct W as [|[t' w'] W]; reflexivity.
Qed.
(** One attempt in vain. *)
Lemma timed_vain : forall x c now W, meets x c now W -> later_than (now + 100) (frames W) ->
  exists c1, read_message_t x c = Ret (None, with_stream x (ck_stream c1), c1) /\ meets (with_stream x (ck_stream c1)) c1 (now + 100) W.
Proof.
  intros x c now W (P & WS & C) L. destruct (attempt_vain _ _ now _ P C (frames_nonempty W) L) as (c1 & RD & C1).
  unfold read_message_t. rewrite RD. exists c1. split; [reflexivity|]. eapply meets_after; eauto.
Qed.
(** The greeting. *)
Lemma timed_greeting : forall x c now t h W m, meets_raw x c now ((t, h) :: frames W) -> List.length h = 68%nat -> hd 0%N h = 19%N -> (t <= now + 100)%N ->
  new_raw h 68 19 = Ret (Ok m) ->
  exists c1, read_message_t x c = Ret (Some m, with_stream x (ck_stream c1), c1) /\ meets (with_stream x (ck_stream c1)) c1 (N.max now t) W.
Proof.
  intros x c now t h W m (P & WS & C) L68 H19 L NR. destruct (attempt_greeting _ _ now t h (frames W) P C L68 H19 L) as (c1 & RD & C1).
  unfold read_message_t. rewrite RD, NR. exists c1. split; [reflexivity|]. eapply meets_after; eauto.
Qed.

(** ** What is sent and what comes back *)
Definition listening : serving := {| sv_heard := []; sv_greeted := true; sv_owes := [] |}.
Lemma stamped_frames : forall v, (forall m, sd_cuts v m = []) -> forall l t, stamped t (encoded v l) = as_events (frames (moments_of t l)).
Proof.
  intros v W. induction l as [|[d m] l IH]; intros t; [reflexivity|]. cbn [encoded flat_map fst snd]. rewrite W. cbn [cut app stamped moments_of frames map as_events fst snd].
  fold (encoded v l). rewrite IH. reflexivity.
Qed.
(** The data of blocks, from one on. *)
Lemma blocks_next : forall cap data j, (j < cap)%N -> from_block cap data j = data j ++ from_block cap data (j + 1).
Proof.
  intros cap data j L. unfold from_block. replace (N.to_nat cap - N.to_nat j)%nat with (S (N.to_nat cap - N.to_nat (j + 1))) by lia.
  cbn [seq map flat_map]. rewrite N2Nat.id. replace (S (N.to_nat j)) with (N.to_nat (j + 1)) by lia. reflexivity.
Qed.
Lemma blocks_end : forall cap data j, (cap <= j)%N -> from_block cap data j = [].
Proof. intros cap data j L. unfold from_block. replace (N.to_nat cap - N.to_nat j)%nat with O by lia. reflexivity. Qed.

Section Far.
  Variables (rtt : N) (v : server).
  Hypothesis whole : forall m, sd_cuts v m = [].
  Notation told := (told_t serving (far rtt v)).

  (** Something is sent to a server that listens; what it answers comes later. *)
  Lemma told_far : forall x c now W b l, meets x c now W ->
    server_hears v listening b = {| sv_heard := []; sv_greeted := true; sv_owes := encoded v l |} ->
    exists c1, told x (after_sending x b) c listening = (c1, listening) /\ meets (after_sending x b) c1 now (W ++ moments_of (now + rtt) l).
  Proof.
    intros x c now W b l M HB. pose proof (meets_now _ _ _ _ M) as EN. destruct M as ([P1 P2] & WS & a & d & EQ & F & (A1 & A2 & A3)).
    unfold told_t, far. cbn [after_sending with_stream p_stream st_sent]. rewrite skipn_app, skipn_all, Nat.sub_diag. cbn [skipn app].
    change {| sv_heard := sv_heard listening; sv_greeted := sv_greeted listening; sv_owes := [] |} with listening. rewrite HB. cbn [sv_heard sv_greeted sv_owes].
    eexists. split; [reflexivity|]. split; [split; assumption|]. split; [exact WS|]. exists a, (d ++ frames (moments_of (now + rtt) l)).
    split; [rewrite frames_app, EQ, app_assoc; reflexivity|]. split; [exact F|]. split; [exact EN|]. split.
    - cbn [set_stream ck_stream after_sending with_stream p_stream] in *. unfold holding, set_avail. cbn [st_avail st_closed st_sched st_wsched st_sent]. rewrite A2 at 1. reflexivity.
    - cbn [set_stream ck_events]. rewrite stamped_frames by exact whole. cbn [set_stream ck_events] in A3. rewrite A3, EN. unfold as_events. rewrite map_app. reflexivity.
  Qed.
  (** Nothing is sent. *)
  Lemma told_far_nothing : forall x c now W, meets x c now W -> exists c1, told x x c listening = (c1, listening) /\ meets x c1 now W.
  Proof.
    intros x c now W M. pose proof (meets_now _ _ _ _ M) as EN. destruct M as (P & WS & a & d & EQ & F & (A1 & A2 & A3)).
    unfold told_t, far. rewrite skipn_all. change {| sv_heard := sv_heard listening; sv_greeted := sv_greeted listening; sv_owes := [] |} with listening.
    change (server_hears v listening []) with listening. cbn [listening sv_owes sv_heard sv_greeted stamped]. eexists. split; [reflexivity|].
    split; [exact P|]. split; [exact WS|]. exists a, d. split; [exact EQ|]. split; [exact F|]. split; [exact EN|]. split; [exact A2|].
    cbn [set_stream ck_events] in *. rewrite A3, app_nil_r. reflexivity.
  Qed.

  (** ** Initialisation *)
  Variable size : N -> hmap N -> Prop.
  Hypothesis size_nonzero : forall n e, size n e -> n <> 0%N.
  Notation fine := (fine size).

  (** What reading a message does to the peer. *)
  Lemma reads_fields : forall x s w m, fine w -> parsed w m -> (p_metadata_size x = 0%N \/ sized size x) ->
    let x2 := apply_message (with_stream x s) m in
    (p_metadata_size x2 = 0%N \/ sized size x2) /\ (sized size x -> sized size x2) /\ (p_choked x = false -> p_choked x2 = false) /\
    (fst w = 1%N -> p_choked x2 = false) /\ (fst w <> 1%N -> p_choked x2 = p_choked x) /\
    (forall m' n e, parsed w m' -> states_size m' = Some (n, e) -> sized size x2) /\ (states_size m = None -> p_metadata_size x2 = p_metadata_size x).
  Proof.
    intros x s w m [(N0 & _ & SZ) _] P INV x2. destruct (apply_fields w m (with_stream x s) P) as (AC & _ & _ & AS & _). fold x2 in AC, AS. cbn [with_stream p_choked p_metadata_size p_extensions] in *.
    assert (AC' : p_choked x2 = if (fst w =? 1)%N then false else p_choked x).
    { rewrite AC. unfold choke_or_unchoke. destruct (N.eqb_spec (fst w) 0); [contradiction|]. cbn [orb]. destruct (fst w =? 1)%N; reflexivity. }
    assert (A2 : forall n e, states_size m = Some (n, e) -> sized size x2).
    { intros n e E. rewrite E in AS. injection AS as E1 E2. unfold sized. rewrite E1, E2. eapply SZ; eauto. }
    assert (A3 : states_size m = None -> p_metadata_size x2 = p_metadata_size x /\ p_extensions x2 = p_extensions x).
    { intros E. rewrite E in AS. injection AS as E1 E2. auto. }
    split; [destruct (states_size m) as [[n e]|] eqn:E; [right; eapply A2; eauto|destruct (A3 eq_refl) as [E1 E2]; unfold sized; rewrite E1, E2; exact INV]|].
    split; [intros S; destruct (states_size m) as [[n e]|] eqn:E; [eapply A2; eauto|destruct (A3 eq_refl) as [E1 E2]; unfold sized; rewrite E1, E2; exact S]|].
    rewrite AC'. split; [destruct (fst w =? 1)%N; auto|]. split; [intros ->; reflexivity|]. split; [intros N1; apply N.eqb_neq in N1; rewrite N1; reflexivity|].
    split.
    - intros m' n e P' S. destruct (parsed_unique _ _ _ P P') as [EC _]. apply (A2 n e). unfold states_size in *. rewrite EC. exact S.
    - intros E. apply A3, E.
  Qed.

  Definition not_yet (x : peer) (l : list (N * raw)) : Prop :=
    (p_choked x = true /\ forall q body, ~ In (q, (1%N, body)) l) \/
    (p_metadata_size x = 0%N /\ forall q w m n e, In (q, w) l -> parsed w m -> states_size m <> Some (n, e)).
  Lemma timed_rounds : forall n W x c now, meets x c now W -> (forall q w, In (q, w) W -> fine w) -> (p_metadata_size x = 0%N \/ sized size x) ->
    W <> [] -> (tries now W <= N.of_nat n)%N -> (forall a b, W = a ++ b -> b <> [] -> not_yet x a) ->
    (p_choked x = false \/ exists q body, In (q, (1%N, body)) W) ->
    (sized size x \/ exists q w m k e, In (q, w) W /\ parsed w m /\ states_size m = Some (k, e)) ->
    exists y c', init_rounds_t n x c = Ret (Ok tt, y, c') /\ meets y c' (all_read now W) [] /\ p_choked y = false /\ sized size y.
  Proof.
    induction n as [|n IH]; intros W x c now M F INV NE TR NY U S.
    { destruct W as [|[t w] W]; [contradiction|]. cbn [tries] in TR. lia. }
    destruct W as [|[t w] W]; [contradiction|]. cbn [tries] in TR. cbn [init_rounds_t]. unfold read_and_apply_t.
    destruct (N.le_gt_cases t (now + 100)) as [L|L].
    - pose proof (F t w (or_introl eq_refl)) as FW. destruct FW as [FW SB]. destruct (timed_attempt x c now t w W M (proj1 (proj2 FW)) SB L) as (m & c1 & RM & P & M1).
      rewrite RM. cbn [obind]. set (x1 := with_stream x (ck_stream c1)) in *.
      destruct (reads_fields x (ck_stream c1) w m (conj FW SB) P INV) as (B1 & B2 & B3 & B4 & B5 & B6 & B7). fold x1 in B1, B2, B3, B4, B5, B6, B7. cbv zeta in *.
      apply (meets_apply _ _ _ _ m) in M1. set (x2 := apply_message x1 m) in *. cbn [all_read].
      assert (U2 : p_choked x2 = false \/ exists q body, In (q, (1%N, body)) W).
      { destruct U as [U|(q & body & [E|I])]; [left; apply B3, U|left; apply B4; injection E as _ ->; reflexivity|right; eauto]. }
      assert (S2 : sized size x2 \/ exists q w m k e, In (q, w) W /\ parsed w m /\ states_size m = Some (k, e)).
      { destruct S as [S|(q & w' & m' & k & e & [E|I] & P' & S)]; [left; apply B2, S|injection E as _ E; left; rewrite <- E in P'; exact (B6 m' k e P' S)|right; exists q, w', m', k, e; auto]. }
      destruct W as [|q' W].
      + destruct U2 as [U2|(q & body & [])]. destruct S2 as [S2|(q & w' & m' & k & e & [] & _)].
        assert (RDY : is_ready x2 = true).
        { unfold is_ready. rewrite U2. pose proof (size_nonzero _ _ S2) as Z. apply N.eqb_neq in Z. rewrite Z. reflexivity. }
        rewrite RDY. exists x2, c1. auto.
      + assert (NRD : is_ready x2 = false).
        { unfold is_ready. destruct (NY [(t, w)] (q' :: W) eq_refl ltac:(discriminate)) as [[Y1 Y2]|[Y1 Y2]].
          - assert (N1 : fst w <> 1%N) by (intros E; apply (Y2 t (snd w)); left; rewrite <- E; destruct w; reflexivity). rewrite (B5 N1), Y1. apply andb_false_r.
          - assert (E0 : states_size m = None) by (destruct (states_size m) as [[k e]|] eqn:E; [exfalso; exact (Y2 t w m k e (or_introl eq_refl) P E)|reflexivity]).
            rewrite (B7 E0), Y1. reflexivity. }
        rewrite NRD. apply (IH (q' :: W) x2 c1 _ M1); auto; try discriminate.
        * intros q r I. apply (F q r). right. exact I.
        * lia.
        * intros a b E NB. destruct (NY ((t, w) :: a) b) as [[Y1 Y2]|[Y1 Y2]]; [rewrite E; reflexivity|exact NB|left|right].
          -- assert (N1 : fst w <> 1%N) by (intros E1; apply (Y2 t (snd w)); left; rewrite <- E1; destruct w; reflexivity).
             split; [rewrite (B5 N1); exact Y1|]. intros q body I. apply (Y2 q body). right. exact I.
          -- assert (E0 : states_size m = None) by (destruct (states_size m) as [[k e]|] eqn:E1; [exfalso; exact (Y2 t w m k e (or_introl eq_refl) P E1)|reflexivity]).
             split; [rewrite (B7 E0); exact Y1|]. intros q r m' k e I. apply (Y2 q r m' k e). right. exact I.
    - destruct (timed_vain x c now ((t, w) :: W) M) as (c1 & RM & M1); [cbn; lia|]. rewrite RM. cbn [obind]. set (x1 := with_stream x (ck_stream c1)) in *.
      assert (NRD : is_ready x1 = false).
      { unfold is_ready. destruct (NY [] ((t, w) :: W) eq_refl NE) as [[Y1 _]|[Y1 _]]; cbn [x1 with_stream p_choked p_metadata_size]; rewrite Y1; [apply andb_false_r|reflexivity]. }
      rewrite NRD. cbn [all_read].
      assert (RB : read_by now t w W = read_by (now + 100) t w W).
      { unfold read_by. replace (N.max (now + 100) t) with (N.max now t) by lia. reflexivity. }
      rewrite RB. change (all_read (read_by (now + 100) t w W) W) with (all_read (now + 100) ((t, w) :: W)).
      apply (IH ((t, w) :: W) x1 c1 (now + 100)%N M1 F INV NE); auto.
      cbn [tries]. rewrite <- RB. unfold piece_count in *. lia.
  Qed.

  Lemma moments_map : forall l t, map snd (moments_of t l) = map snd l.
  Proof. induction l as [|[d m] l IH]; intros t; [reflexivity|]. cbn [moments_of map snd]. rewrite IH. reflexivity. Qed.
  Lemma opening_map : forall t, map snd (opening_at rtt v t) = map snd (opening v).
  Proof. intros t. unfold opening_at, opening. rewrite !map_app, !moments_map. reflexivity. Qed.

  (** ** The first exchange *)
  Lemma far_greets : forall now pid, List.length (sd_ih v) = 20%nat -> List.length pid = 20%nat ->
    far rtt v now newly (handshake_layout (sd_ih v) pid) =
    (as_events ((now + rtt, handshake_layout (sd_ih v) (sd_pid v))%N :: frames (moments_of (now + rtt) (sd_hello v))), listening).
  Proof.
    intros now pid L1 L2. unfold far. change {| sv_heard := sv_heard newly; sv_greeted := sv_greeted newly; sv_owes := [] |} with newly.
    rewrite understands_handshake by assumption.
    cbn [sv_owes sv_heard sv_greeted stamped]. change (N.of_nat 0) with 0%N. rewrite N.add_0_r, stamped_frames by exact whole. reflexivity.
  Qed.

  Lemma timed_init : forall now pid, near rtt size v -> List.length (sd_ih v) = 20%nat -> List.length pid = 20%nat ->
    exists y c, init_peer_t serving (far rtt v) (peer_new pid (fresh []) (sd_ih v)) (connected now []) newly = Ret (Ok tt, y, c, listening) /\
      meets y c (ready_at rtt v now) [] /\ p_choked y = false /\ sized size y.
  Proof.
    intros now pid [NR WP _ WS WU WT WB WL] L1 L2. unfold init_peer_t. cbn [peer_new p_info_hash p_id].
    fold (peer_new pid (fresh []) (sd_ih v)). set (x := peer_new pid (fresh []) (sd_ih v)).
    rewrite (send_ok x) by reflexivity. destruct (c14_new (sd_ih v) pid) as [HL _]. rewrite HL. cbv zeta.
    set (x0 := after_sending x (handshake_layout (sd_ih v) pid)). set (h := handshake_layout (sd_ih v) (sd_pid v)).
    assert (T0 : told x x0 (connected now []) newly = ({| ck_now := now; ck_events := as_events ((now + rtt, h)%N :: frames (moments_of (now + rtt) (sd_hello v))); ck_log := []; ck_stream := fresh [] |}, listening)).
    { unfold told_t. cbn [x x0 after_sending with_stream p_stream st_sent peer_new fresh app List.length skipn connected ck_now ck_events ck_log ck_stream]. rewrite far_greets by assumption. reflexivity. }
    rewrite T0. clear T0. match goal with |- context [read_and_apply_t x0 ?c] => set (c0 := c) end.
    destruct (layout_parts (sd_ih v) (sd_pid v) L1 WP) as (P1 & P2 & P3). fold h in P1, P2, P3.
    destruct (c14_parse h ltac:(lia)) as (hm & EH & IH & _).
    set (m := {| msg_id := 19%N; msg_length := 68; msg_content := CHandshake hm |}).
    assert (NR' : new_raw h 68 19 = Ret (Ok m)) by (unfold new_raw; cbn [N.eqb Pos.eqb orb]; rewrite EH; reflexivity).
    assert (M0 : meets_raw x0 c0 now ((now + rtt, h)%N :: frames (moments_of (now + rtt) (sd_hello v)))).
    { split; [split; reflexivity|]. split; [reflexivity|]. exists [], ((now + rtt, h)%N :: frames (moments_of (now + rtt) (sd_hello v))). split; [reflexivity|]. split; [constructor|].
      split; [reflexivity|]. split; reflexivity. }
    destruct (timed_greeting x0 c0 now (now + rtt) h (moments_of (now + rtt) (sd_hello v)) m M0 P1 P2 ltac:(lia) NR') as (c1 & RM & M1).
    replace (N.max now (now + rtt)) with (now + rtt)%N in M1 by lia. unfold read_and_apply_t. rewrite RM. cbn [obind].
    apply (meets_apply _ _ _ _ m) in M1. set (x1 := with_stream x0 (ck_stream c1)) in *. set (x2 := apply_message x1 m) in *.
    assert (P : parsed (19%N, h) m) by (exists 68%N; exact NR').
    destruct (apply_fields (19%N, h) m x1 P) as (AC & _ & AA & AS & AST & _ & _). fold x2 in AC, AA, AS, AST. cbn [fst snd] in AA.
    assert (ACT : is_active x2 = true).
    { unfold is_active. rewrite AA. unfold handshake_id. cbn [fst N.eqb Pos.eqb]. change (p_info_hash x1) with (sd_ih v). rewrite P3. apply bytes_eqb_refl. }
    rewrite ACT. cbn [negb].
    assert (WZ : st_wsched (p_stream x2) = []) by apply M1.
    rewrite (send_ok x2) by exact WZ. rewrite c16_interested.
    destruct (told_far x2 c1 _ _ (frame 2 []) (sd_interested v) M1) as (c2 & T2 & M2).
    { rewrite (understands_frame (fun _ _ => False) (fun _ _ h => False_ind _ h)) by reflexivity. reflexivity. }
    rewrite T2. set (z1 := after_sending x2 (frame 2 [])) in *.
    unfold peer_send_metadata_handshake, send_metadata_handshake_request, write_all.
    assert (WZ1 : st_wsched (p_stream z1) = []) by exact WZ. rewrite WZ1. cbn [tl].
    match goal with |- context [told z1 ?y _ _] => assert (Z : y = after_sending z1 metadata_handshake_bytes) end.
    { unfold after_sending at 1. rewrite WZ1. reflexivity. }
    rewrite Z. clear Z.
    destruct (told_far z1 c2 _ _ metadata_handshake_bytes (sd_extended v) M2) as (c3 & T3 & M3).
    { assert (MH : metadata_handshake_bytes = frame 20 (0%N :: skipn 6 metadata_handshake_bytes)) by (vm_compute; reflexivity).
      rewrite MH, (understands_frame (fun _ _ => False) (fun _ _ h => False_ind _ h)) by (try reflexivity; vm_compute; reflexivity). reflexivity. }
    rewrite T3. cbn [negb]. set (z2 := after_sending z1 metadata_handshake_bytes) in *. rewrite <- app_assoc in M3.
    fold (opening_at rtt v (now + rtt)) in M3. set (W := opening_at rtt v (now + rtt)) in *.
    assert (IN : forall q r, In (q, r) W -> exists q', In (q', r) (opening v)).
    { intros q r I. apply (in_map snd) in I. unfold W in I. rewrite opening_map in I. apply in_map_iff in I as ([q' r'] & E & I). cbn [snd] in E. subst r'. eauto. }
    assert (IN2 : forall q r, In (q, r) (opening v) -> exists q', In (q', r) W).
    { intros q r I. apply (in_map snd) in I. rewrite <- (opening_map (now + rtt)) in I. apply in_map_iff in I as ([q' r'] & E & I). cbn [snd] in E. subst r'. eauto. }
    assert (ZC : p_choked z2 = true) by (change (p_choked z2) with (p_choked x2); rewrite AC; reflexivity).
    assert (ZS : p_metadata_size z2 = 0%N) by reflexivity.
    destruct (timed_rounds 10 W z2 c3 _ M3) as (y & c4 & E4 & M4 & CH & SZ).
    - intros q w I. destruct (IN q w I) as [q' I']. exact (WB q' w I').
    - left. exact ZS.
    - destruct WU as (q & body & I). destruct (IN2 _ _ I) as [q' I']. intros E. rewrite E in I'. destruct I'.
    - apply WS.
    - intros a b E NB.
      assert (SPLIT : exists a' b', opening v = a' ++ b' /\ b' <> [] /\ map snd a' = map snd a).
      { exists (firstn (List.length a) (opening v)), (skipn (List.length a) (opening v)). split; [symmetry; apply firstn_skipn|].
        assert (EM : map snd (opening v) = map snd a ++ map snd b) by (rewrite <- (opening_map (now + rtt)); fold W; rewrite E; apply map_app).
        split.
        - intros X. apply (f_equal (@List.length _)) in X. rewrite skipn_length in X. apply (f_equal (@List.length _)) in EM. rewrite app_length, !map_length in EM.
          destruct b; [contradiction|]. cbn [List.length] in *. lia.
        - rewrite <- firstn_map, EM. rewrite <- (map_length snd a), firstn_app, firstn_all, Nat.sub_diag. cbn [firstn]. apply app_nil_r. }
      destruct SPLIT as (a' & b' & EO & NB' & EA).
      assert (INA : forall q r, In (q, r) a -> exists q', In (q', r) a').
      { intros q r I. apply (in_map snd) in I. rewrite <- EA in I. apply in_map_iff in I as ([q' r'] & E' & I). cbn [snd] in E'. subst r'. eauto. }
      destruct (WL a' b' EO NB') as [H|H]; [left|right].
      + split; [exact ZC|]. intros q body I. destruct (INA _ _ I) as [q' I']. exact (H q' body I').
      + split; [exact ZS|]. intros q w m' k e I. destruct (INA _ _ I) as [q' I']. exact (H q' w m' k e I').
    - right. destruct WU as (q & body & I). destruct (IN2 _ _ I) as [q' I']. eauto.
    - right. destruct WT as (q & w & m' & k & e & I & PW & SW). destruct (IN2 _ _ I) as [q' I']. exists q', w, m', k, e. auto.
    - exists y, c4. rewrite E4. cbn [obind]. split; [reflexivity|]. split; [exact M4|]. auto.
  Qed.

  (** ** The exchange of blocks *)
  Variable filter : message -> bool.
  Variable next : peer -> N -> outcome peer.
  Variables cap good : N.
  Hypothesis good_le : (good <= cap)%N.
  Variable blk : N -> raw.
  Variable data : N -> bytes.
  Variable delay : N -> nat.
  Hypothesis next_ok : forall x n, st_wsched (p_stream x) = [] -> sized size x -> (n < cap)%N -> exists b, next x n = Ret (after_sending x b) /\
    server_hears v listening b = {| sv_heard := []; sv_greeted := true; sv_owes := encoded v [(delay n, blk n)] |}.
  Hypothesis blk_ok : forall n, (n < cap)%N -> fine (blk n) /\ forall m, parsed (blk n) m -> filter m = true /\ get_content_data m = data n.
  Hypothesis blk_body : forall n, (n < cap)%N -> snd (blk n) <> [].
  (** The blocks below [good] come in time, block [good] does not. *)
  Hypothesis in_time : forall n, (n < good)%N -> (rtt + N.of_nat (delay n) <= 1000)%N.
  Hypothesis too_late : (good < cap)%N -> (1000 < rtt + N.of_nat (delay good))%N.

  Notation sum k := (one_by_one rtt delay (N.to_nat k)).
  Lemma sum_next : forall k, sum (k + 1)%N = (sum k + (rtt + N.of_nat (delay k)))%N.
  Proof. intros k. replace (N.to_nat (k + 1)) with (S (N.to_nat k)) by lia. cbn [one_by_one]. rewrite N2Nat.id. reflexivity. Qed.

  Lemma timed_waiting : forall fuel x c now t b idle, let j := lenN (mb_buffer b) in
    meets x c now [(t, blk j)] -> sized size x -> p_choked x = false -> mb_capacity b = cap -> (j < cap)%N -> (j <= good)%N -> mb_expected_size b = (j + 1)%N ->
    (1 <= idle <= 10)%N -> (now <= t)%N -> ((j < good)%N -> (t <= now + 100 * (11 - idle))%N) -> ((j = good)%N -> (now + 100 * (11 - idle) < t)%N) ->
    (11 - N.to_nat idle + 10 * (N.to_nat cap - N.to_nat j - 1) <= fuel)%nat ->
    exists y c', execute_t serving (far rtt v) fuel filter next x c listening b idle =
      Ret (if (good =? cap)%N then Ok (flat_map get_content_data (mb_buffer b) ++ from_block cap data j) else Err Idle, y, c', listening) /\
      (ck_now c' + (if (j =? good)%N then 0 else sum (j + 1)) = (if (j =? good)%N then now + 100 * (11 - idle) else t + sum good + (if good =? cap then 0 else 1000)))%N.
  Proof.
    induction fuel as [|fuel IH]; intros x c now t b idle j M SZ CH EC LJ LG X LI LT GD BD LF; [lia|].
    cbn [execute_t].
    assert (NFull : is_full b = false) by (unfold is_full; apply N.eqb_neq; fold j; lia).
    assert (AE : is_len_as_expected b = true) by (apply N.eqb_eq; exact X).
    destruct (N.le_gt_cases t (now + 100)) as [L|L].
    - assert (JG : (j < good)%N) by (destruct (N.eq_dec j good) as [E|]; [specialize (BD E); lia|lia]).
      destruct (blk_ok j LJ) as [[FW SB] BK]. destruct (timed_attempt x c now t (blk j) [] M (proj1 (proj2 FW)) SB L) as (m & c1 & RM & P & M1).
      rewrite RM. cbn [obind].
      assert (RB : read_by now t (blk j) [] = t).
      { unfold read_by. pose proof (blk_body j LJ) as BB. destruct (snd (blk j)); [contradiction|]. lia. }
      rewrite RB in M1. clear RB.
      destruct (reads_fields x (ck_stream c1) (blk j) m (conj FW SB) P (or_intror SZ)) as (_ & B2 & B3 & _). cbv zeta in *.
      apply (meets_apply _ _ _ _ m) in M1. set (x2 := apply_message (with_stream x (ck_stream c1)) m) in *. specialize (B2 SZ). specialize (B3 CH).
      destruct (BK m P) as [FM DM]. unfold push_message. rewrite FM, NFull. cbn [negb andb].
      set (b1 := {| mb_buffer := mb_buffer b ++ [m]; mb_capacity := mb_capacity b; mb_expected_size := mb_expected_size b |}).
      assert (LB1 : lenN (mb_buffer b1) = (j + 1)%N) by (cbn [b1 mb_buffer]; unfold j, lenN; rewrite app_length; cbn [List.length]; lia).
      assert (DB1 : flat_map get_content_data (mb_buffer b) ++ from_block cap data j = flat_map get_content_data (mb_buffer b1) ++ from_block cap data (j + 1)).
      { cbn [b1 mb_buffer]. rewrite flat_map_app. cbn [flat_map]. rewrite app_nil_r, DM, <- app_assoc, blocks_next by exact LJ. reflexivity. }
      rewrite DB1. replace (j =? good)%N with false by (symmetry; apply N.eqb_neq; lia).
      destruct (N.eq_dec (j + 1) cap) as [EJ|NJ].
      + replace (is_full b1) with true by (symmetry; apply N.eqb_eq; rewrite LB1; cbn [b1 mb_capacity]; congruence).
        assert (EG : good = cap) by lia. rewrite EG, N.eqb_refl.
        unfold assemble_content. rewrite blocks_end by lia. rewrite app_nil_r. exists x2, c1. split; [reflexivity|]. rewrite (meets_now _ _ _ _ M1), EJ. lia.
      + replace (is_full b1) with false by (symmetry; apply N.eqb_neq; rewrite LB1; cbn [b1 mb_capacity]; rewrite EC; exact NJ).
        unfold is_choked. rewrite B3. unfold request_next_message.
        replace (is_full b1) with false by (symmetry; apply N.eqb_neq; rewrite LB1; cbn [b1 mb_capacity]; rewrite EC; exact NJ).
        replace (is_len_as_expected b1) with false by (symmetry; apply N.eqb_neq; rewrite LB1; cbn [b1 mb_expected_size]; lia). cbn [orb]. rewrite LB1.
        destruct (next_ok x2 (j + 1)%N (proj1 (proj2 M1)) B2 ltac:(lia)) as (w & -> & HW). cbn [obind].
        destruct (told_far x2 c1 t [] w [(delay (j + 1)%N, blk (j + 1)%N)] M1 HW) as (c2 & T2 & M2). rewrite T2. change (10 <? 0 + 1)%N with false. cbv iota.
        cbn [app moments_of] in M2.
        match goal with |- context [execute_t _ _ _ _ _ _ _ _ ?bb _] => set (b2 := bb) end.
        assert (LB2 : lenN (mb_buffer b2) = (j + 1)%N) by exact LB1.
        destruct (IH (after_sending x2 w) c2 t (t + rtt + N.of_nat (delay (j + 1)))%N b2 (0 + 1)%N) as (y & c' & EX & TM).
        * rewrite LB2. exact M2.
        * exact B2.
        * exact B3.
        * exact EC.
        * lia.
        * lia.
        * rewrite LB2. cbn [b2 b1 mb_expected_size]. lia.
        * lia.
        * lia.
        * rewrite LB2. intros JG'. pose proof (in_time _ JG'). lia.
        * rewrite LB2. intros E. assert (GC : (good < cap)%N) by lia. pose proof (too_late GC) as TL. rewrite <- E in TL. lia.
        * rewrite LB2. lia.
        * exists y, c'. rewrite LB2 in EX. split; [exact EX|]. rewrite LB2 in TM. pose proof (sum_next (j + 1)%N) as SN.
          destruct (N.eqb_spec (j + 1) good) as [E|E].
          -- assert (GC : (good =? cap)%N = false) by (apply N.eqb_neq; lia). rewrite GC. rewrite <- E. lia.
          -- lia.
    - destruct (timed_vain x c now [(t, blk j)] M) as (c1 & RM & M1); [cbn; lia|]. rewrite RM. cbn [obind]. set (x1 := with_stream x (ck_stream c1)) in *.
      rewrite NFull. unfold is_choked. change (p_choked x1) with (p_choked x). rewrite CH. unfold request_next_message. rewrite AE. cbn [orb obind].
      destruct (told_far_nothing x1 c1 _ _ M1) as (c2 & T2 & M2). rewrite T2.
      destruct (N.ltb_spec 10 (idle + 1)) as [G|G].
      + assert (E10 : idle = 10%N) by lia.
        assert (JE : j = good) by (destruct (N.eq_dec j good) as [|NE]; [assumption|specialize (GD ltac:(lia)); lia]).
        rewrite <- JE. replace (j =? cap)%N with false by (symmetry; apply N.eqb_neq; lia). rewrite N.eqb_refl. eexists. exists c2. split; [reflexivity|].
        rewrite (meets_now _ _ _ _ M2). lia.
      + destruct (IH x1 c2 (now + 100)%N t b (idle + 1)%N) as (y & c' & EX & TM); auto.
        * lia.
        * lia.
        * fold j. intros JG. specialize (GD JG). lia.
        * fold j. intros JE. specialize (BD JE). lia.
        * fold j. lia.
        * exists y, c'. split; [exact EX|]. fold j in TM. destruct (j =? good)%N; lia.
  Qed.

  (** All of it, from the moment at which the peer is ready. *)
  Lemma timed_execute : forall fuel x c now, meets x c now [] -> sized size x -> p_choked x = false -> (0 < cap)%N -> (1 + 10 * N.to_nat cap <= fuel)%nat ->
    exists y c', execute_t serving (far rtt v) fuel filter next x c listening (buffer_new cap) 0 =
      Ret (if (good =? cap)%N then Ok (from_block cap data 0) else Err Idle, y, c', listening) /\
      ck_now c' = (now + 100 + sum good + (if good =? cap then 0 else 1000))%N.
  Proof.
    intros fuel x c now M SZ CH C0 LF. destruct fuel as [|fuel]; [lia|]. cbn [execute_t].
    destruct (timed_vain x c now [] M I) as (c1 & RM & M1). rewrite RM. cbn [obind]. set (x1 := with_stream x (ck_stream c1)) in *.
    assert (NFull : is_full (buffer_new cap) = false) by (unfold is_full; apply N.eqb_neq; cbn [buffer_new mb_buffer mb_capacity]; change (lenN []) with 0%N; lia).
    rewrite NFull. unfold is_choked. change (p_choked x1) with (p_choked x). rewrite CH. unfold request_next_message. rewrite NFull.
    change (is_len_as_expected (buffer_new cap)) with false. cbn [orb]. change (lenN (mb_buffer (buffer_new cap))) with 0%N.
    destruct (next_ok x1 0%N (proj1 (proj2 M1)) SZ C0) as (w & -> & HW). cbn [obind].
    destruct (told_far x1 c1 _ [] w [(delay 0%N, blk 0%N)] M1 HW) as (c2 & T2 & M2). rewrite T2. change (10 <? 0 + 1)%N with false. cbv iota. cbn [app moments_of] in M2.
    match goal with |- context [execute_t _ _ _ _ _ _ _ _ ?bb _] => set (b2 := bb) end.
    assert (LB2 : lenN (mb_buffer b2) = 0%N) by reflexivity.
    destruct (timed_waiting fuel (after_sending x1 w) c2 (now + 100)%N (now + 100 + rtt + N.of_nat (delay 0))%N b2 (0 + 1)%N) as (y & c' & EX & TM); auto; try lia; rewrite ?LB2.
    - intros JG. pose proof (in_time _ JG). lia.
    - intros E. pose proof (too_late ltac:(lia)) as TL. rewrite <- E in TL. lia.
    - rewrite LB2 in EX, TM. cbn [b2 mb_buffer buffer_new flat_map app] in EX. exists y, c'. split; [exact EX|].
      pose proof (sum_next 0) as SN. change (0 + 1)%N with 1%N in *. change (sum 0%N) with 0%N in SN.
      destruct (N.eqb_spec 0 good) as [E|E].
      + rewrite <- E in *. change (sum 0%N) with 0%N. replace (0 =? cap)%N with false by (symmetry; apply N.eqb_neq; lia). lia.
      + lia.
  Qed.
End Far.

(** ** A piece, and the metadata *)
Lemma timed_piece : forall sha1 p fuel now rtt v pid ep i idx total good,
  parse_socket_addr ep <> None -> get_total_length p i = Ret total ->
  (0 < i_piece_length i)%N -> (idx < piece_count total (i_piece_length i))%N -> (total + i_piece_length i <= 2 ^ 64)%N ->
  (idx < 2 ^ 32)%N -> (i_piece_length i < 2 ^ 32)%N -> (forall b, List.length (sha1 b) = 20%nat) -> List.length pid = 20%nat ->
  (i_piece_length i mod 16384 = 0 \/ idx + 1 = piece_count total (i_piece_length i))%N ->
  sd_ih v = compute_info_hash sha1 i -> near rtt some_size v ->
  let piece := sd_piece v idx in
  let blocks := piece_count (lenN piece) 16384 in
  let delay := fun n => sd_delay v (request_for idx (lenN piece) n) in
  lenN piece = N.min (i_piece_length i) (total - idx * i_piece_length i) ->
  (20 * N.to_nat idx + 20 <= List.length (i_pieces i))%nat -> sha1 piece = firstn 20 (skipn (20 * N.to_nat idx) (i_pieces i)) ->
  (good <= blocks)%N -> (forall n, (n < good)%N -> (rtt + N.of_nat (delay n) <= 1000)%N) -> ((good < blocks)%N -> (1000 < rtt + N.of_nat (delay good))%N) ->
  (1 + 10 * N.to_nat blocks <= fuel)%nat ->
  download_t serving (far rtt v) sha1 p fuel now [] newly pid ep i idx =
    Ret (if (good =? blocks)%N then Ok piece else Err (MEPieceDownloadFailure Idle),
         ready_at rtt v now + 100 + one_by_one rtt delay (N.to_nat good) + (if good =? blocks then 0 else 1000))%N.
Proof.
  intros sha1 p fuel now rtt v pid ep i idx total good EP GT P I O I32 P32 HL LP AL IH NE piece blocks delay HV LS HS GC IT TL LF. unfold download_t, connect.
  destruct (parse_socket_addr ep); [|congruence]. cbn [obind].
  set (plen := i_piece_length i) in *. destruct (count_bounds total plen P) as (C1 & C2 & C3). pose proof (C3 idx I) as C4.
  assert (LI : List.length (sd_ih v) = 20%nat) by (rewrite IH; apply HL).
  destruct (count_bounds (lenN piece) 16384 ltac:(lia)) as (D1 & _ & D3). fold blocks in D1, D3.
  set (len := fun n => N.min (total - idx * plen - n * 16384) 16384).
  assert (IN : forall n, (n < blocks)%N -> (n * 16384 + len n <= lenN piece)%N).
  { intros n LN. specialize (D3 n LN). unfold len. rewrite HV in *. destruct AL as [AL|AL]; [|assert (total <= idx * plen + plen)%N by nia; lia].
    apply N.mod_divide in AL; [|lia]. destruct AL as [k AL]. set (T := (total - idx * plen)%N) in *. clearbody T. rewrite AL in *. lia. }
  assert (RQ : forall n, (n < blocks)%N -> (6%N, block_body idx n (len n)) = request_for idx (lenN piece) n).
  { intros n LN. specialize (IN n LN). specialize (D3 n LN). unfold request_for, block_body. repeat f_equal. unfold len in *. rewrite HV in *. lia. }
  assert (C0 : (0 < blocks)%N) by nia.
  destruct (timed_init rtt v (ne_whole _ _ _ NE) some_size (fun _ _ h => h) now pid NE LI LP) as (x & c & E1 & M & CH & SZ).
  rewrite <- IH, E1. cbn [obind]. rewrite GT. cbn [obind]. unfold get_piece_length. fold plen. unfold download_block_t.
  rewrite real_length by auto. cbn [obind]. rewrite <- HV. unfold BLOCK_SIZE. rewrite step_by_count by lia. cbn [obind]. fold blocks.
  destruct (timed_execute rtt v (ne_whole _ _ _ NE) some_size (fun _ _ h => h) is_request_message (next_block p 16384 idx total plen) blocks good GC
    (fun n => (7%N, (big_endian 4 idx ++ big_endian 4 (n * 16384)) ++ part piece (n * 16384) (len n))) (fun n => part piece (n * 16384) (len n)) delay)
    with (fuel := fuel) (x := x) (c := c) (now := ready_at rtt v now) as (y & c' & EX & TM); auto.
  - intros z n W _ LN. destruct (asks v p plen idx total P I O I32 P32 HV z n W LN) as [A1 A2]. fold (len n) in A1, A2. exists (frame 6 (block_body idx n (len n))).
    split; [exact A1|]. rewrite (A2 listening eq_refl eq_refl). specialize (IN n LN). apply N.leb_le in IN. fold piece. rewrite IN, RQ by exact LN. reflexivity.
  - intros n LN. exact (block_ok v plen idx total P I O I32 P32 HV n LN).
  - intros n LN. cbn [snd]. intros X. apply (f_equal (@List.length _)) in X. rewrite !app_length, be_length in X. discriminate.
  - rewrite EX. cbn [obind]. rewrite TM. clear TM EX. destruct (good =? blocks)%N; [|reflexivity].
    unfold blocks, piece. rewrite parts_all.
    + unfold verify_piece. rewrite get_piece_spec. destruct (Nat.leb_spec (20 * N.to_nat idx + 20) (List.length (i_pieces i))); [|lia].
      cbn [obind]. fold piece. rewrite HS, bytes_eqb_refl. reflexivity.
    + intros n LN. fold piece in LN. fold blocks in LN. specialize (D3 n LN). specialize (IN n LN). fold piece. unfold len in *. rewrite HV in *. lia.
Qed.

Lemma c86_piece : forall sha1 p fuel now rtt v pid ep i idx total,
  parse_socket_addr ep <> None -> get_total_length p i = Ret total ->
  (0 < i_piece_length i)%N -> (idx < piece_count total (i_piece_length i))%N -> (total + i_piece_length i <= 2 ^ 64)%N ->
  (idx < 2 ^ 32)%N -> (i_piece_length i < 2 ^ 32)%N -> (forall b, List.length (sha1 b) = 20%nat) -> List.length pid = 20%nat ->
  (i_piece_length i mod 16384 = 0 \/ idx + 1 = piece_count total (i_piece_length i))%N ->
  sd_ih v = compute_info_hash sha1 i -> near rtt some_size v ->
  let piece := sd_piece v idx in
  let blocks := piece_count (lenN piece) 16384 in
  let delay := fun n => sd_delay v (request_for idx (lenN piece) n) in
  lenN piece = N.min (i_piece_length i) (total - idx * i_piece_length i) ->
  (20 * N.to_nat idx + 20 <= List.length (i_pieces i))%nat -> sha1 piece = firstn 20 (skipn (20 * N.to_nat idx) (i_pieces i)) ->
  (1 + 10 * N.to_nat blocks <= fuel)%nat ->
  ((forall n, (n < blocks)%N -> (rtt + N.of_nat (delay n) <= 1000)%N) ->
     download_t serving (far rtt v) sha1 p fuel now [] newly pid ep i idx =
     Ret (Ok piece, ready_at rtt v now + 100 + one_by_one rtt delay (N.to_nat blocks))%N) /\
  (forall j, (j < blocks)%N -> (forall n, (n < j)%N -> (rtt + N.of_nat (delay n) <= 1000)%N) -> (1000 < rtt + N.of_nat (delay j))%N ->
     download_t serving (far rtt v) sha1 p fuel now [] newly pid ep i idx =
     Ret (Err (MEPieceDownloadFailure Idle), ready_at rtt v now + 100 + one_by_one rtt delay (N.to_nat j) + 1000)%N).
Proof.
  intros sha1 p fuel now rtt v pid ep i idx total EP GT P I O I32 P32 HL LP AL IH NE piece blocks delay HV LS HS LF. split.
  - intros IT. rewrite (timed_piece sha1 p fuel now rtt v pid ep i idx total blocks); auto; [|apply N.le_refl|intros X; exfalso; exact (N.lt_irrefl _ X)]. fold piece. fold blocks. rewrite N.eqb_refl, N.add_0_r. reflexivity.
  - intros j LJ IT TL. rewrite (timed_piece sha1 p fuel now rtt v pid ep i idx total j); auto; [|fold piece; fold blocks; lia]. fold piece. fold blocks.
    replace (j =? blocks)%N with false by (symmetry; apply N.eqb_neq; lia). reflexivity.
Qed.

Lemma c86_metadata : forall fuel now rtt v pid ep i,
  parse_socket_addr ep <> None -> List.length (sd_ih v) = 20%nat -> List.length pid = 20%nat ->
  (0 < lenN (sd_metadata v) < 2 ^ 64)%N -> (0 < sd_number v)%N -> near rtt (under_number (lenN (sd_metadata v)) (sd_number v)) v ->
  info_from_bytes (sd_metadata v) = Ret (Ok i) ->
  let blocks := piece_count (lenN (sd_metadata v)) 16384 in
  let delay := fun k => sd_delay v (20%N, sd_number v :: benc (metadata_request k)) in
  (forall n, (n < blocks)%N -> (rtt + N.of_nat (delay n) <= 1000)%N) -> (1 + 10 * N.to_nat blocks <= fuel)%nat ->
  get_info_t serving (far rtt v) fuel now [] newly pid (sd_ih v) ep =
    Ret (Ok i, ready_at rtt v now + 100 + one_by_one rtt delay (N.to_nat blocks))%N.
Proof.
  intros fuel now rtt v pid ep i EP LI LP [N0 N64] NU NE II blocks delay IT LF. unfold get_info_t, connect. destruct (parse_socket_addr ep); [|congruence]. cbn [obind].
  destruct (cap_64 v N0 N64 NU) as (C0 & C1 & C2). fold blocks in C0, C1, C2.
  set (size := under_number (lenN (sd_metadata v)) (sd_number v)) in *.
  assert (NZ : forall n e, size n e -> n <> 0%N) by (intros n e [-> _]; lia).
  destruct (timed_init rtt v (ne_whole _ _ _ NE) size NZ now pid NE LI LP) as (x & c & E1 & M & CH & SZ).
  rewrite E1. cbn [obind]. unfold download_info_t, get_metadata_size, INFO_PIECE_SIZE. destruct SZ as [S1 S2]. rewrite S1.
  rewrite step_by_count by lia. cbn [obind]. fold blocks.
  destruct (timed_execute rtt v (ne_whole _ _ _ NE) size NZ is_extension_data_message next_piece blocks blocks (N.le_refl _)
    (metadata_reply v) (fun k => part (sd_metadata v) (k * 16384) 16384) delay)
    with (fuel := fuel) (x := x) (c := c) (now := ready_at rtt v now) as (y & c' & EX & TM); auto.
  - intros z n W SX LN. destruct (asks_metadata v N0 N64 NU z n W SX LN) as [A1 A2]. eexists. split; [exact A1|]. rewrite (A2 listening eq_refl eq_refl). reflexivity.
  - intros n LN. exact (reply_ok v N0 N64 NU n LN).
  - intros n LN. unfold metadata_reply, extension_message. discriminate.
  - lia.
  - split; [exact S1|exact S2].
  - rewrite EX. cbn [obind]. rewrite TM, N.eqb_refl. clear TM EX. unfold blocks. rewrite (parts_all (sd_metadata v) (fun _ => 16384%N)) by (intros; left; reflexivity).
    rewrite II. cbn [obind]. fold blocks. rewrite N.add_0_r. reflexivity.
Qed.

(** ** Every timed session is one with a schedule *)
Section Adequacy.
  Variable R : Type.
  Variable hear : N -> R -> bytes -> list (N * tick) * R.

  Lemma timed_read : forall x c, exists ks, forall tail,
    read_message (facing x (ks ++ tail)) = ('(m, y, _) <- read_message_t x c ;; Ret (m, facing y tail)).
  Proof.
    intros x c. destruct (stream_refines (set_stream c (p_stream x))) as (ks & _ & _ & H). exists ks. intros tail. specialize (H tail).
    unfold read_message, read_message_t, facing. cbn [with_stream p_stream set_stream ck_stream] in *.
    change (given (p_stream x) (ks ++ tail)) with (with_sched (p_stream x) (ks ++ tail)). rewrite H.
    destruct (read_stream_c _) as [[[[body id] len]|] c1]; cbn [fst snd]; [|reflexivity]. destruct (new_raw body len id); reflexivity.
  Qed.
  Lemma timed_read_apply : forall x c, exists ticks, forall tail, read_and_apply (facing x (ticks ++ tail)) =
    ('(y, _) <- read_and_apply_t x c ;; Ret (facing y tail)).
  Proof.
    intros x c. destruct (timed_read x c) as [k H]. exists k. intros tail. unfold read_and_apply, read_and_apply_t. rewrite H.
    destruct (read_message_t x c) as [[[[m|] x1] r1]| |]; cbn [obind]; rewrite ?apply_facing; reflexivity.
  Qed.
  Lemma timed_rounds_sched : forall n x c, exists ticks, forall tail, init_rounds n (facing x (ticks ++ tail)) =
    ('(o, y, _) <- init_rounds_t n x c ;; Ret (o, facing y tail)).
  Proof.
    induction n as [|n IH]; intros x c; [exists []; reflexivity|]. destruct (timed_read_apply x c) as [t1 H1]. cbn [init_rounds init_rounds_t].
    destruct (read_and_apply_t x c) as [[x1 c1]| |] eqn:E.
    - destruct (is_ready x1) eqn:RD.
      + exists t1. intros tail. rewrite H1. cbn [obind]. change (is_ready (facing x1 tail)) with (is_ready x1). now rewrite RD.
      + destruct (IH x1 c1) as [t2 H2]. exists (t1 ++ t2). intros tail. rewrite <- app_assoc, H1. cbn [obind].
        change (is_ready (facing x1 (t2 ++ tail))) with (is_ready x1). rewrite RD. apply H2.
    - exists t1. intros tail. rewrite H1. reflexivity.
    - exists t1. intros tail. rewrite H1. reflexivity.
  Qed.
  Lemma timed_init_sched : forall x c r, exists ticks, forall tail, init_peer (facing x (ticks ++ tail)) =
    ('(o, y, _, _) <- init_peer_t R hear x c r ;; Ret (o, facing y tail)).
  Proof.
    intros x c r. unfold init_peer, init_peer_t. cbv zeta.
    set (x0 := send_message x (new_handshake (p_info_hash x) (p_id x))).
    assert (E0 : forall l, send_message (facing x l) (new_handshake (p_info_hash (facing x l)) (p_id (facing x l))) = facing x0 l)
      by (intros l; apply send_facing).
    destruct (told_t R hear x x0 c r) as [c0 r0]. destruct (timed_read_apply x0 c0) as [t1 H1].
    destruct (read_and_apply_t x0 c0) as [[x1 c1]| |] eqn:E; [|exists t1; intros tail; rewrite E0, H1; reflexivity..].
    cbn [obind] in *. destruct (is_active x1) eqn:AC; cbn [negb].
    2: { exists t1. intros tail. rewrite E0, H1. cbn [obind]. change (is_active (facing x1 tail)) with (is_active x1). rewrite AC. reflexivity. }
    set (x2 := send_message x1 new_interested). destruct (told_t R hear x1 x2 c1 r0) as [c2 r2].
    assert (E2 : forall l, peer_send_metadata_handshake (facing x2 l) =
      (fst (peer_send_metadata_handshake x2), facing (snd (peer_send_metadata_handshake x2)) l)).
    { intros l. unfold peer_send_metadata_handshake, send_metadata_handshake_request, facing. cbn [with_stream p_stream].
      rewrite write_given. destruct (write_all (p_stream x2) metadata_handshake_bytes); reflexivity. }
    destruct (peer_send_metadata_handshake x2) as [ok x3]. cbn [fst snd] in E2. destruct (told_t R hear x2 x3 c2 r2) as [c3 r3].
    destruct ok; cbn [negb].
    - destruct (timed_rounds_sched 10 x3 c3) as [t2 H2]. exists (t1 ++ t2). intros tail.
      rewrite <- app_assoc, E0, H1. cbn [obind]. change (is_active (facing x1 (t2 ++ tail))) with (is_active x1). rewrite AC. cbn [negb].
      rewrite send_facing. fold x2. rewrite E2. cbn [negb]. rewrite H2. destruct (init_rounds_t 10 x3 c3) as [[[o y] c4]| |]; reflexivity.
    - exists t1. intros tail. rewrite E0, H1. cbn [obind]. change (is_active (facing x1 tail)) with (is_active x1). rewrite AC. cbn [negb].
      rewrite send_facing. fold x2. rewrite E2. reflexivity.
  Qed.
  Lemma timed_execute_sched : forall filter next, oblivious next -> forall fuel x c r b idle, exists ticks, forall tail,
    execute fuel filter next (facing x (ticks ++ tail)) b idle = ('(o, y, _, _) <- execute_t R hear fuel filter next x c r b idle ;; Ret (o, facing y tail)).
  Proof.
    intros filter next O. induction fuel as [|fuel IH]; intros x c r b idle; [exists []; reflexivity|].
    cbn [execute execute_t]. destruct (timed_read x c) as [k H1].
    destruct (read_message_t x c) as [[[m x1] c1]| |]; cbn [obind] in *; [|exists k; intros tail; rewrite H1; reflexivity..].
    set (after := match m with Some m => (apply_message x1 m, push_message filter b m, 0%N) | None => (x1, b, idle) end).
    assert (EA : forall l, match m with Some m => (apply_message (facing x1 l) m, push_message filter b m, 0%N) | None => (facing x1 l, b, idle) end
      = (let '(y, c, j) := after in (facing y l, c, j))) by (intros l; unfold after; destruct m; rewrite ?apply_facing; reflexivity).
    destruct after as [[x2 b1] idle1]. cbv zeta in EA.
    destruct (is_full b1) eqn:F; [exists k; intros tail; rewrite H1; cbn [obind]; rewrite EA, F; reflexivity|].
    destruct (is_choked x2) eqn:C.
    { exists k. intros tail. rewrite H1. cbn [obind]. rewrite EA, F. change (is_choked (facing x2 tail)) with (is_choked x2). rewrite C. reflexivity. }
    assert (RQ : forall l, request_next_message next b1 (facing x2 l) = ('(b2, y) <- request_next_message next b1 x2 ;; Ret (b2, facing y l)))
      by (intros l; now apply request_facing).
    destruct (request_next_message next b1 x2) as [[b2 x3]| |]; cbn [obind] in *.
    2,3: exists k; intros tail; rewrite H1; cbn [obind]; rewrite EA, F; change (is_choked (facing x2 tail)) with (is_choked x2); rewrite C, RQ; reflexivity.
    destruct (told_t R hear x2 x3 c1 r) as [c2 r2].
    destruct (10 <? idle1 + 1)%N eqn:I.
    { exists k. intros tail. rewrite H1. cbn [obind]. rewrite EA, F. change (is_choked (facing x2 tail)) with (is_choked x2). rewrite C, RQ. cbn [obind].
      rewrite I. reflexivity. }
    destruct (IH x3 c2 r2 b2 (idle1 + 1)%N) as [t2 H2]. exists (k ++ t2). intros tail. rewrite <- app_assoc, H1. cbn [obind].
    rewrite EA, F. change (is_choked (facing x2 (t2 ++ tail))) with (is_choked x2). rewrite C, RQ. cbn [obind]. rewrite I. apply H2.
  Qed.

  Lemma c86_schedules :
    (forall sha1 p fuel now ws r pid ep i idx, exists l, forall tail,
       ('(o, _) <- download_t R hear sha1 p fuel now ws r pid ep i idx ;; Ret o) = download sha1 p fuel (Some (scheduled ws (l ++ tail))) pid ep i idx) /\
    (forall fuel now ws r pid ih ep, exists l, forall tail,
       ('(o, _) <- get_info_t R hear fuel now ws r pid ih ep ;; Ret o) = get_info fuel (Some (scheduled ws (l ++ tail))) pid ih ep).
  Proof.
    split.
    - intros sha1 p fuel now ws r pid ep i idx. unfold download, download_t, connect. destruct (parse_socket_addr ep); [|exists []; reflexivity].
      cbn [orbind obind]. destruct (timed_init_sched (peer_new pid (fresh ws) (compute_info_hash sha1 i)) (connected now ws) r) as [t1 H1].
      change (facing (peer_new pid (fresh ws) (compute_info_hash sha1 i)) ?l) with (peer_new pid (scheduled ws l) (compute_info_hash sha1 i)) in H1.
      destruct (init_peer_t R hear _ _ r) as [[[[[u|e] x1] c1] r1]| |]; cbn [obind] in *.
      2-4: exists t1; intros tail; rewrite H1; reflexivity.
      destruct (get_total_length p i) as [total| |]; cbn [obind]; [|exists t1; intros tail; rewrite H1; reflexivity..].
      assert (B : exists t2, forall tail, download_block p fuel (get_piece_length i) idx total (facing x1 (t2 ++ tail)) =
        ('(o, y, _, _) <- download_block_t R hear p fuel (get_piece_length i) idx total x1 c1 r1 ;; Ret (o, facing y tail))).
      { unfold download_block, download_block_t. destruct (real_piece_length _ _ _ _); cbn [obind]; [|exists []; reflexivity..]. destruct (step_by_len _ _); cbn [obind]; [|exists []; reflexivity..].
        apply timed_execute_sched, next_block_oblivious. }
      destruct B as [t2 H2]. exists (t1 ++ t2). intros tail. rewrite <- app_assoc, H1. cbn [obind].
      rewrite H2. destruct (download_block_t _ _ _ _ _ _ _ _ _ _) as [[[[d y] c2] r2]| |]; cbn [obind]; try reflexivity.
      destruct d as [piece|e]; [|reflexivity]. destruct (verify_piece sha1 i piece idx) as [[|]| |]; reflexivity.
    - intros fuel now ws r pid ih ep. unfold get_info, get_info_t, connect. destruct (parse_socket_addr ep); [|exists []; reflexivity].
      cbn [orbind obind]. destruct (timed_init_sched (peer_new pid (fresh ws) ih) (connected now ws) r) as [t1 H1].
      change (facing (peer_new pid (fresh ws) ih) ?l) with (peer_new pid (scheduled ws l) ih) in H1.
      destruct (init_peer_t R hear _ _ r) as [[[[[u|e] x1] c1] r1]| |]; cbn [obind] in *.
      2-4: exists t1; intros tail; rewrite H1; reflexivity.
      assert (B : exists t2, forall tail, download_info fuel (facing x1 (t2 ++ tail)) =
        ('(o, y, _, _) <- download_info_t R hear fuel x1 c1 r1 ;; Ret (o, facing y tail))).
      { unfold download_info, download_info_t. change (get_metadata_size (facing x1 _)) with (get_metadata_size x1).
        destruct (step_by_len _ _); cbn [obind]; [|exists []; reflexivity..]. apply timed_execute_sched, next_piece_oblivious. }
      destruct B as [t2 H2]. exists (t1 ++ t2). intros tail. rewrite <- app_assoc, H1. cbn [obind].
      rewrite H2. destruct (download_info_t _ _ _ _ _) as [[[[d y] c2] r2]| |]; cbn [obind]; try reflexivity.
      destruct d as [b|e]; [|reflexivity]. destruct (info_from_bytes b) as [[|]| |]; reflexivity.
  Qed.
End Adequacy.

(** ** A server that is too far away *)
Fixpoint stamps (start : N) (l : list (nat * bytes)) : list (N * bytes) :=
  match l with [] => [] | (d, b) :: t => (start + N.of_nat d, b)%N :: stamps (start + N.of_nat d) t end.
Lemma stamped_events : forall l start, stamped start l = as_events (stamps start l).
Proof. induction l as [|[d b] l IH]; intros start; [reflexivity|]. cbn [stamped stamps as_events map fst snd]. rewrite IH. reflexivity. Qed.
Lemma distant_init : forall rtt v x now r, (100 < rtt)%N -> p_active x = false -> st_avail (p_stream x) = [] -> st_closed (p_stream x) = false -> st_sched (p_stream x) = [] ->
  exists y c r', init_peer_t serving (far rtt v) x (connected now []) r = Ret (Err MEHandshake, y, c, r') /\ ck_now c = (now + 100)%N.
Proof.
  intros rtt v x now r FAR AC A1 A2 A3. unfold init_peer_t. set (x0 := send_message x _).
  assert (X0 : p_active x0 = false /\ st_avail (p_stream x0) = [] /\ plain (p_stream x0)).
  { unfold x0, send_message, write_stream, write_all, plain. destruct (st_wsched (p_stream x)) as [|[n|] w]; cbn; auto. }
  destruct X0 as (C & B1 & PL).
  destruct (told_t serving (far rtt v) x x0 (connected now []) r) as [c0 r0] eqn:T0.
  assert (C0 : exists W, ck_now c0 = now /\ ck_events c0 = as_events W /\ later_than (now + 100) W).
  { unfold told_t, far in T0. injection T0 as <- _. cbn [ck_now ck_events connected app]. rewrite stamped_events. eexists. split; [reflexivity|]. split; [reflexivity|].
    match goal with |- context [stamps _ ?owed] => destruct owed as [|[d b] more] end; cbn [stamps later_than fst]; [exact I|lia]. }
  destruct C0 as (W & E1 & E2 & LT).
  assert (AT : at_moment (set_stream c0 (p_stream x0)) (p_stream x0) now [] W).
  { split; [exact E1|]. split; [|exact E2]. cbn [set_stream ck_stream]. unfold holding, set_avail. rewrite <- B1 at 1. destruct (p_stream x0); reflexivity. }
  destruct (wait_vain _ _ _ _ PL AT LT) as (c1 & W1 & A4).
  destruct (peek_after_wait _ _ _ _ _ 1 _ _ PL W1 A4) as (c2 & PK & A5). cbn [app] in PK.
  assert (RD : read_stream_c (set_stream c0 (p_stream x0)) = (None, c2)) by (unfold read_stream_c, has_messages_c; rewrite PK; reflexivity).
  unfold read_and_apply_t, read_message_t. rewrite RD. cbn [obind]. unfold is_active. cbn [with_stream p_active]. rewrite C. cbn [negb].
  eexists. exists c2. eexists. split; [reflexivity|]. apply A5.
Qed.
Lemma c86_distant : forall rtt v now r pid ep, (100 < rtt)%N -> parse_socket_addr ep <> None ->
  (forall sha1 p fuel i idx, download_t serving (far rtt v) sha1 p fuel now [] r pid ep i idx = Ret (Err MEHandshake, now + 100)%N) /\
  (forall fuel ih, get_info_t serving (far rtt v) fuel now [] r pid ih ep = Ret (Err MEHandshake, now + 100)%N).
Proof.
  intros rtt v now r pid ep FAR EP. split; intros.
  - unfold download_t, connect. destruct (parse_socket_addr ep); [|congruence]. cbn [obind].
    destruct (distant_init rtt v (peer_new pid (fresh []) (compute_info_hash sha1 i)) now r FAR eq_refl eq_refl eq_refl eq_refl) as (y & c & r' & E & T). rewrite E. cbn [obind]. rewrite T. reflexivity.
  - unfold get_info_t, connect. destruct (parse_socket_addr ep); [|congruence]. cbn [obind].
    destruct (distant_init rtt v (peer_new pid (fresh []) ih) now r FAR eq_refl eq_refl eq_refl eq_refl) as (y & c & r' & E & T). rewrite E. cbn [obind]. rewrite T. reflexivity.
Qed.
(** At least one round trip for every block, and one for the handshake. *)
Lemma all_read_later : forall l now, (now <= all_read now l)%N.
Proof.
  induction l as [|[t m] l IH]; intros now; [cbn; lia|]. cbn [all_read]. etransitivity; [|apply IH]. unfold read_by. destruct (snd m); [destruct l as [|[t' m'] l]|]; lia.
Qed.
Lemma c86_round_trips : forall rtt v now delay k, (now + rtt <= ready_at rtt v now)%N /\ (N.of_nat k * rtt <= one_by_one rtt delay k)%N.
Proof.
  intros rtt v now delay k. split; [apply all_read_later|]. induction k as [|k IH]; [cbn; lia|]. cbn [one_by_one]. lia.
Qed.
Lemma first_slow : forall (f : N -> N) k, (forall n, (n < N.of_nat k)%N -> (f n <= 1000)%N) \/
  exists j, (j < N.of_nat k)%N /\ (forall n, (n < j)%N -> (f n <= 1000)%N) /\ (1000 < f j)%N.
Proof.
  intros f k. induction k as [|k [IH|(j & A & B & C)]].
  - left. intros n L. lia.
  - destruct (N.le_gt_cases (f (N.of_nat k)) 1000) as [L|L].
    + left. intros n H. destruct (N.eq_dec n (N.of_nat k)) as [->|NE]; [exact L|apply IH; lia].
    + right. exists (N.of_nat k). split; [lia|]. split; [exact IH|exact L].
  - right. exists j. split; [lia|]. auto.
Qed.
Lemma c86_rate : forall sha1 p fuel now rtt v pid ep i idx total,
  parse_socket_addr ep <> None -> get_total_length p i = Ret total ->
  (0 < i_piece_length i)%N -> (idx < piece_count total (i_piece_length i))%N -> (total + i_piece_length i <= 2 ^ 64)%N ->
  (idx < 2 ^ 32)%N -> (i_piece_length i < 2 ^ 32)%N -> (forall b, List.length (sha1 b) = 20%nat) -> List.length pid = 20%nat ->
  (i_piece_length i mod 16384 = 0 \/ idx + 1 = piece_count total (i_piece_length i))%N ->
  sd_ih v = compute_info_hash sha1 i -> near rtt some_size v ->
  let piece := sd_piece v idx in
  let blocks := piece_count (lenN piece) 16384 in
  lenN piece = N.min (i_piece_length i) (total - idx * i_piece_length i) ->
  (20 * N.to_nat idx + 20 <= List.length (i_pieces i))%nat -> sha1 piece = firstn 20 (skipn (20 * N.to_nat idx) (i_pieces i)) ->
  (1 + 10 * N.to_nat blocks <= fuel)%nat ->
  forall got t, download_t serving (far rtt v) sha1 p fuel now [] newly pid ep i idx = Ret (Ok got, t) -> (now + 100 + rtt * (1 + blocks) <= t)%N.
Proof.
  intros sha1 p fuel now rtt v pid ep i idx total H1 H2 H3 H4 H5 H6 H7 H8 H9 H10 H11 H12 piece blocks H13 H14 H15 H16 got t.
  pose proof (c86_piece sha1 p fuel now rtt v pid ep i idx total H1 H2 H3 H4 H5 H6 H7 H8 H9 H10 H11 H12 H13 H14 H15 H16) as [A B].
  fold piece in A, B. fold blocks in A, B. set (delay := fun n => sd_delay v (request_for idx (lenN piece) n)) in *.
  destruct (first_slow (fun n => (rtt + N.of_nat (delay n))%N) (N.to_nat blocks)) as [G|(j & J1 & J2 & J3)].
  - rewrite N2Nat.id in G. rewrite (A G). intros E. injection E as _ <-. destruct (c86_round_trips rtt v now delay (N.to_nat blocks)) as [X Y]. rewrite N2Nat.id in Y. lia.
  - rewrite N2Nat.id in J1. rewrite (B j J1 J2 J3). discriminate.
Qed.
