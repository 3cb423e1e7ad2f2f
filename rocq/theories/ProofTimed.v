(** ProofTimed: proofs for property C86 *)
From Verif Require Import Base ModelBencode ModelMessages ModelTorrent ModelTracker ModelStream ModelPeer ModelLive ModelClock ModelTimed
  SpecBencode SpecTorrent SpecMessages SpecStream SpecWriter SpecPieces SpecPeer SpecSession SpecClock SpecLive SpecTimed
  ProofBase ProofMessages ProofStream ProofPeer ProofSession ProofClock ProofLive ProofServe ProofAnswers.

(** ** What a clocked socket does when everything comes in whole messages *)
Definition as_events (l : list (N * bytes)) : list (N * tick) := map (fun q => (fst q, TData (snd q))) l.
Definition in_order (l : list (N * bytes)) : bytes := List.concat (map snd l).
Lemma in_order_app : forall a b, in_order (a ++ b) = in_order a ++ in_order b.
Proof. intros. unfold in_order. now rewrite map_app, concat_app. Qed.

(** What is due at [now], and the rest. *)
Lemma burst_split : forall now l, exists a b, l = a ++ b /\ Forall (fun q => fst q <= now)%N a /\
  match b with [] => True | q :: _ => (now < fst q)%N end /\ burst now (as_events l) = (in_order a, as_events b).
Proof.
  intros now. induction l as [|[t e] l IH]; [exists [], []; repeat split; constructor|]. cbn [as_events map fst snd burst].
  destruct (N.leb_spec t now) as [L|L].
  - destruct IH as (a & b & -> & F & B & E). exists ((t, e) :: a), b. split; [reflexivity|]. split; [constructor; auto|]. split; [exact B|].
    change (map (fun q => (fst q, TData (snd q))) (a ++ b)) with (as_events (a ++ b)). rewrite E. reflexivity.
  - exists [], ((t, e) :: l). split; [reflexivity|]. split; [constructor|]. split; [exact L|]. reflexivity.
Qed.
Lemma due_events : forall now l, due now (as_events l) = (TData (fst (burst now (as_events l))), snd (burst now (as_events l))).
Proof. intros now [|[t e] l]; [reflexivity|]. unfold due. cbn [as_events map fst snd]. destruct (burst now _); reflexivity. Qed.

(** The socket [s], with [a] to read. *)
Definition holding (s : stream) (a : bytes) : stream := set_avail s a.
Definition plain (s : stream) : Prop := st_closed s = false /\ st_sched s = [].
(** At [now] the socket holds [a], and [b] is still to come. *)
Definition at_moment (c : clocked) (s : stream) (now : N) (a : bytes) (b : list (N * bytes)) : Prop :=
  ck_now c = now /\ ck_stream c = holding s a /\ ck_events c = as_events b.
Definition later_than (now : N) (b : list (N * bytes)) : Prop := match b with [] => True | q :: _ => (now < fst q)%N end.

Lemma later_burst : forall now b, later_than now b -> burst now (as_events b) = ([], as_events b).
Proof.
  intros now [|[t e] b] L; [reflexivity|]. cbn [as_events map fst snd burst later_than] in *. destruct (N.leb_spec t now); [lia|]. reflexivity.
Qed.

(** Waiting when there is something. *)
Lemma wait_static : forall c s now a b, plain s -> at_moment c s now a b -> a <> [] -> later_than now b ->
  exists c', wait c = (TData [], c') /\ at_moment c' s now a b.
Proof.
  intros c s now a b [P1 P2] (E1 & E2 & E3) NE L. unfold wait. rewrite E2. cbn [holding set_avail st_avail]. destruct a as [|h a]; [congruence|].
  rewrite E1, E3, due_events, later_burst by exact L. cbn [fst snd].
  assert (AM : forall lg, at_moment {| ck_now := now; ck_events := as_events b; ck_log := lg; ck_stream := holding s (h :: a) |} s now (h :: a) b)
    by (intros; repeat split).
  destruct b as [|[t e] b]; cbn [as_events map fst snd]; [eexists; split; [reflexivity|apply AM]|]. rewrite orb_true_r.
  eexists. split; [reflexivity|apply AM].
Qed.
(** Waiting for what comes. *)
Lemma wait_for : forall c s now t e b, plain s -> at_moment c s now [] ((t, e) :: b) -> (t <= now + 100)%N ->
  exists c' a b', wait c = (TData (in_order a), c') /\ (t, e) :: b = a ++ b' /\ a <> [] /\ Forall (fun q => fst q <= N.max now t)%N a /\
    later_than (N.max now t) b' /\ at_moment c' s (N.max now t) [] b'.
Proof.
  intros c s now t e b [P1 P2] (E1 & E2 & E3) L. unfold wait. rewrite E2. cbn [holding set_avail st_avail st_closed]. rewrite E3, E1, P1.
  cbn [as_events map fst snd]. rewrite orb_false_r. change ((t, TData e) :: map (fun q => (fst q, TData (snd q))) b) with (as_events ((t, e) :: b)).
  destruct (burst_split (N.max now t) ((t, e) :: b)) as (a & b' & EQ & F & B & BU).
  assert (NE : a <> []) by (intros ->; cbn [app] in EQ; rewrite <- EQ in B; cbn [fst] in B; lia).
  destruct (N.leb_spec t now) as [L1|L1].
  - replace (N.max now t) with now in * by lia. rewrite due_events, BU. cbn [fst snd]. eexists _, a, b'. split; [reflexivity|]. repeat split; auto.
  - destruct (N.leb_spec t (now + READ_TIMEOUT)) as [L2|L2]; [|unfold READ_TIMEOUT in L2; lia].
    replace (N.max now t) with t in * by lia. rewrite due_events, BU. cbn [fst snd]. eexists _, a, b'. split; [reflexivity|]. repeat split; auto.
Qed.
(** Waiting in vain. *)
Lemma wait_vain : forall c s now b, plain s -> at_moment c s now [] b -> later_than (now + 100) b ->
  exists c', wait c = (TData [], c') /\ at_moment c' s (now + 100) [] b.
Proof.
  intros c s now b [P1 P2] (E1 & E2 & E3) L. unfold wait. rewrite E2. cbn [holding set_avail st_avail st_closed]. rewrite E3, E1, P1.
  destruct b as [|[t e] b].
  - cbn [as_events map]. eexists. split; [reflexivity|]. repeat split.
  - cbn [as_events map fst snd later_than] in *. rewrite orb_false_r. destruct (N.leb_spec t now) as [|_]; [lia|].
    unfold READ_TIMEOUT. destruct (N.leb_spec t (now + 100)) as [|_]; [lia|].
    change ((t, TData e) :: map (fun q => (fst q, TData (snd q))) b) with (as_events ((t, e) :: b)). rewrite due_events, later_burst by exact L.
    eexists. split; [reflexivity|]. repeat split.
Qed.

Lemma with_holding : forall s a l, with_sched (holding s a) l = {| st_avail := a; st_closed := st_closed s; st_sched := l; st_wsched := st_wsched s; st_sent := st_sent s |}.
Proof. reflexivity. Qed.
(** Reading and peeking after waiting. *)
Lemma peek_after_wait : forall c s now a b n d c', plain s -> wait c = (TData d, c') -> at_moment c' s now a b ->
  exists c2, peek_c n c = (match a ++ d with [] => None | _ => Some (takeN n (a ++ d)) end, c2) /\ at_moment c2 s now (a ++ d) b.
Proof.
  intros c s now a b n d c' [P1 P2] W (E1 & E2 & E3). unfold peek_c. rewrite W, E2, with_holding. unfold peek, env_step.
  cbn [st_sched st_closed st_avail st_wsched st_sent]. rewrite P1. destruct (a ++ d) eqn:E; cbn [st_avail]; (eexists; split; [reflexivity|]);
    (split; [exact E1|split; [|exact E3]]); unfold set_stream, holding, set_avail; cbn [ck_stream]; rewrite P2, P1; reflexivity.
Qed.
Lemma read_after_wait : forall c s now a b n d c', plain s -> wait c = (TData d, c') -> at_moment c' s now a b -> a ++ d <> [] ->
  exists c2, read_c n c = (Some (takeN n (a ++ d)), c2) /\ at_moment c2 s now (dropN n (a ++ d)) b.
Proof.
  intros c s now a b n d c' [P1 P2] W (E1 & E2 & E3) NE. unfold read_c. rewrite W, E2, with_holding. unfold read, env_step.
  cbn [st_sched st_closed st_avail st_wsched st_sent]. rewrite P1. destruct (a ++ d) eqn:E; [congruence|]. cbn [st_avail]. rewrite <- E. eexists. split; [reflexivity|].
  split; [exact E1|split; [|exact E3]]. unfold set_stream, holding, set_avail. cbn [ck_stream st_wsched st_sent st_closed st_sched]. rewrite P2, P1. reflexivity.
Qed.
Lemma read_nothing : forall c s now b c', plain s -> wait c = (TData [], c') -> at_moment c' s now [] b ->
  forall n, exists c2, read_c n c = (None, c2) /\ at_moment c2 s now [] b.
Proof.
  intros c s now b c' [P1 P2] W (E1 & E2 & E3) n. unfold read_c. rewrite W, E2, with_holding. unfold read, env_step.
  cbn [st_sched st_closed st_avail st_wsched st_sent]. rewrite P1. cbn [app st_avail st_closed]. eexists. split; [reflexivity|].
  split; [exact E1|split; [|exact E3]]. unfold set_stream, holding, set_avail. cbn [ck_stream]. rewrite P2, P1. reflexivity.
Qed.

(** With something to read, nothing waits. *)
Lemma peek_static : forall c s now a b n, plain s -> at_moment c s now a b -> a <> [] -> later_than now b ->
  exists c2, peek_c n c = (Some (takeN n a), c2) /\ at_moment c2 s now a b.
Proof.
  intros c s now a b n P A NE L. destruct (wait_static c s now a b P A NE L) as (c' & W & A'). destruct (peek_after_wait c s now a b n [] c' P W A') as (c2 & E & A2).
  rewrite app_nil_r in *. exists c2. split; [|exact A2]. rewrite E. destruct a; [congruence|reflexivity].
Qed.
Lemma read_static : forall c s now a b n, plain s -> at_moment c s now a b -> a <> [] -> later_than now b ->
  exists c2, read_c n c = (Some (takeN n a), c2) /\ at_moment c2 s now (dropN n a) b.
Proof.
  intros c s now a b n P A NE L. destruct (wait_static c s now a b P A NE L) as (c' & W & A').
  pose proof (read_after_wait c s now a b n [] c' P W A') as H. rewrite app_nil_r in H. exact (H NE).
Qed.

(** Waiting when there is something, and more may have come. *)
Lemma wait_more : forall c s now a b, plain s -> at_moment c s now a b -> a <> [] ->
  exists c' a2 b', wait c = (TData (in_order a2), c') /\ b = a2 ++ b' /\ Forall (fun q => fst q <= now)%N a2 /\ later_than now b' /\ at_moment c' s now a b'.
Proof.
  intros c s now a b [P1 P2] (E1 & E2 & E3) NE. unfold wait. rewrite E2. cbn [holding set_avail st_avail]. destruct a as [|h a]; [congruence|].
  rewrite E1, E3. destruct (burst_split now b) as (a2 & b' & EQ & F & B & BU).
  assert (AM : forall lg, at_moment {| ck_now := now; ck_events := as_events b'; ck_log := lg; ck_stream := holding s (h :: a) |} s now (h :: a) b')
    by (intros; repeat split).
  destruct (as_events b) as [|[t e] r] eqn:EB.
  - destruct b; [|discriminate]. symmetry in EQ. apply app_eq_nil in EQ as [-> ->]. eexists _, [], []. split; [reflexivity|]. repeat split; auto.
  - rewrite orb_true_r. rewrite <- EB in BU |- *. rewrite due_events, BU. cbn [fst snd]. eexists _, a2, b'. split; [reflexivity|]. split; [exact EQ|]. split; [exact F|]. split; [exact B|apply AM].
Qed.

(** [W] is what is still to be read: some of it has come, the rest comes in time. *)
Definition coming (c : clocked) (s : stream) (now : N) (W : list (N * bytes)) : Prop := exists a b,
  W = a ++ b /\ Forall (fun q => fst q <= now)%N a /\ at_moment c s now (in_order a) b.
(** The same, when all that is due has come. *)
Definition settled (c : clocked) (s : stream) (now : N) (e : bytes) (W : list (N * bytes)) : Prop := exists a b,
  W = a ++ b /\ Forall (fun q => fst q <= now)%N a /\ later_than now b /\ at_moment c s now (e ++ in_order a) b.

Lemma takeN_1 : forall (l : bytes), l <> [] -> exists x y, takeN 1 l = x :: y.
Proof. intros [|x l] N; [easy|]. unfold takeN. destruct (_ <=? _)%N; [exists x, l; reflexivity|exists x, []; reflexivity]. Qed.

Lemma first_look : forall c s now t e W, plain s -> coming c s now ((t, e) :: W) -> e <> [] -> (t <= now + 100)%N ->
  exists c1, has_messages_c c = (true, c1) /\ settled c1 s (N.max now t) e W.
Proof.
  intros c s now t e W P (a & b & EQ & F & A) NE L. unfold has_messages_c. destruct a as [|q a].
  - cbn [app in_order map List.concat] in *. rewrite <- EQ in A. destruct (wait_for c s now t e W P A L) as (c' & a & b' & WT & EQ' & NA & F' & LT & A').
    destruct a as [|q a]; [congruence|]. injection EQ' as <- EW. destruct (peek_after_wait c s _ [] b' 1 _ c' P WT A') as (c2 & E & A2). cbn [app] in E, A2.
    change (in_order ((t, e) :: a)) with (e ++ in_order a) in *. destruct (e ++ in_order a) as [|h r] eqn:EA; [apply app_eq_nil in EA as [? _]; contradiction|].
    destruct (takeN_1 (h :: r)) as (x & y & TK); [discriminate|]. rewrite E, TK. exists c2. split; [reflexivity|].
    apply Forall_cons_iff in F' as [_ F']. exists a, b'. rewrite EA. auto.
  - injection EQ as <- EW. apply Forall_cons_iff in F as [T F]. cbn [fst] in T. replace (N.max now t) with now by lia.
    change (in_order ((t, e) :: a)) with (e ++ in_order a) in A.
    destruct (wait_more c s now _ b P A) as (c' & a2 & b' & WT & EQ' & F' & LT & A'); [intros X; apply app_eq_nil in X as [? _]; contradiction|].
    destruct (peek_after_wait c s _ _ b' 1 _ c' P WT A') as (c2 & E & A2). rewrite <- app_assoc, <- in_order_app in *.
    destruct (e ++ in_order (a ++ a2)) as [|h r] eqn:EA; [apply app_eq_nil in EA as [? _]; contradiction|].
    destruct (takeN_1 (h :: r)) as (x & y & TK); [discriminate|]. rewrite E, TK. exists c2. split; [reflexivity|].
    exists (a ++ a2), b'. rewrite EA. split; [rewrite EW, EQ', app_assoc; reflexivity|]. split; [apply Forall_app; auto|auto].
Qed.

(** A frame without a body. *)
Definition wait_next (now : N) (W : list (N * bytes)) : N :=
  match W with (t', _) :: _ => N.min (N.max now t') (now + 200) | [] => now + 200 end%N.
Lemma body_at_once : forall n retry len c body c', peek_and_read_c len c = (Some body, c') -> read_body_c (S n) retry len c = (Some body, c').
Proof. intros n retry len c body c' E. cbn [read_body_c]. rewrite E. reflexivity. Qed.
Lemma peek_none_body : forall c s now W, plain s -> settled c s now [] W -> Forall (fun q => snd q <> []) W ->
  exists c', peek_and_read_c 0 c = (Some [], c') /\ coming c' s (wait_next now W) W.
Proof.
  intros c s now W P (a & b & EQ & F & LT & A) NE. cbn [app] in A.
  assert (T0 : forall l : bytes, takeN 0 l = []) by (intros [|? ?]; reflexivity). assert (D0 : forall l : bytes, dropN 0 l = l) by (intros [|? ?]; reflexivity).
  assert (ST : forall c1 τ a1 b1, W = a1 ++ b1 -> a1 <> [] -> Forall (fun q => fst q <= τ)%N a1 -> later_than τ b1 -> at_moment c1 s τ (in_order a1) b1 ->
    exists c', (let (rd, c2) := read_c 0 c1 in let got := match rd with Some got => got | None => [] end in
       if (lenN got =? 0)%N then (Some got, c2) else (None, c2)) = (Some [], c') /\ coming c' s τ W).
  { intros c1 τ a1 b1 E1 N1 F1 L1 A1. assert (NO : in_order a1 <> []).
    { destruct a1 as [|q a1]; [congruence|]. rewrite E1 in NE. apply Forall_cons_iff in NE as [NQ _]. cbn [in_order map List.concat]. intros X. apply app_eq_nil in X as [X _]. contradiction. }
    destruct (read_static c1 s τ (in_order a1) b1 0 P A1 NO L1) as (c2 & E & A2). rewrite E, T0. change (lenN [] =? 0)%N with true. cbv iota. exists c2. split; [reflexivity|].
    rewrite D0 in A2. exists a1, b1. auto. }
  unfold peek_and_read_c. destruct a as [|q a].
  - cbn [app in_order map List.concat] in *. subst b.
    destruct W as [|[t' e'] W].
    + destruct (wait_vain c s now [] P A I) as (c1 & W1 & A1). destruct (peek_after_wait c s _ [] [] 0 [] c1 P W1 A1) as (c2 & E & A2). cbn [app] in E. rewrite E.
      change (0 =? 0)%N with true. cbv iota. destruct (wait_vain c2 s _ [] P A2 I) as (c3 & W3 & A3). destruct (read_nothing c2 s _ [] c3 P W3 A3 0%N) as (c4 & E4 & A4). rewrite E4.
      change (lenN [] =? 0)%N with true. cbv iota. exists c4. split; [reflexivity|]. exists [], []. split; [reflexivity|]. split; [constructor|]. cbn [wait_next].
      replace (now + 200)%N with (now + 100 + 100)%N by lia. exact A4.
    + cbn [later_than fst] in LT. destruct (N.le_gt_cases t' (now + 100)) as [L1|L1].
      * destruct (wait_for c s now t' e' W P A L1) as (c1 & a1 & b1 & W1 & E1 & N1 & F1 & LT1 & A1).
        destruct (peek_after_wait c s _ [] b1 0 _ c1 P W1 A1) as (c2 & E & A2). cbn [app] in E, A2. rewrite E.
        assert (E0 : (match (match in_order a1 with [] => None | _ => Some (takeN 0 (in_order a1)) end) with Some got => lenN got | None => 0%N end = 0)%N) by (destruct (in_order a1); [reflexivity|rewrite T0; reflexivity]).
        match goal with |- context [(?x =? 0)%N] => replace x with 0%N by (symmetry; exact E0) end. change (0 =? 0)%N with true. cbv iota.
        destruct (ST c2 (N.max now t') a1 b1 E1 N1 F1 LT1 A2) as (c' & EE & CC). exists c'. split; [exact EE|]. cbn [wait_next]. replace (N.min (N.max now t') (now + 200)) with (N.max now t') by lia. exact CC.
      * destruct (wait_vain c s now ((t', e') :: W) P A ltac:(cbn; lia)) as (c1 & W1 & A1).
        destruct (peek_after_wait c s _ [] _ 0 [] c1 P W1 A1) as (c2 & E & A2). cbn [app] in E. rewrite E. change (0 =? 0)%N with true. cbv iota.
        destruct (N.le_gt_cases t' (now + 200)) as [L2|L2].
        -- destruct (wait_for c2 s (now + 100) t' e' W P A2 ltac:(lia)) as (c3 & a1 & b1 & W3 & E1 & N1 & F1 & LT1 & A3).
           assert (NO : in_order a1 <> []).
           { destruct a1 as [|q a1]; [congruence|]. rewrite E1 in NE. apply Forall_cons_iff in NE as [NQ _]. cbn [in_order map List.concat]. intros X. apply app_eq_nil in X as [X _]. contradiction. }
           destruct (read_after_wait c2 s _ [] b1 0 _ c3 P W3 A3 NO) as (c4 & E4 & A4). cbn [app] in E4, A4. rewrite E4, T0. change (lenN [] =? 0)%N with true. cbv iota.
           exists c4. split; [reflexivity|]. rewrite D0 in A4. cbn [wait_next]. replace (N.min (N.max now t') (now + 200)) with (N.max (now + 100) t') by lia. exists a1, b1. auto.
        -- destruct (wait_vain c2 s (now + 100) ((t', e') :: W) P A2 ltac:(cbn; lia)) as (c3 & W3 & A3). destruct (read_nothing c2 s _ _ c3 P W3 A3 0%N) as (c4 & E4 & A4). rewrite E4.
           change (lenN [] =? 0)%N with true. cbv iota. exists c4. split; [reflexivity|]. cbn [wait_next]. replace (N.min (N.max now t') (now + 200)) with (now + 100 + 100)%N by lia.
           exists [], ((t', e') :: W). split; [reflexivity|]. split; [constructor|exact A4].
  - assert (NO : in_order (q :: a) <> []).
    { rewrite EQ in NE. apply Forall_cons_iff in NE as [NQ _]. cbn [in_order map List.concat]. intros X. apply app_eq_nil in X as [X _]. contradiction. }
    destruct (peek_static c s now _ b 0 P A NO LT) as (c2 & E & A2). rewrite E, T0. change (lenN [] =? 0)%N with true. cbv iota.
    destruct (ST c2 now (q :: a) b EQ ltac:(discriminate) F LT A2) as (c' & EE & CC). exists c'. split; [exact EE|].
    replace (wait_next now W) with now; [exact CC|]. rewrite EQ. cbn [app wait_next]. apply Forall_cons_iff in F as [T _]. destruct q as [t' e']. cbn [fst] in T. lia.
Qed.

(** One attempt to read a message that comes within a tenth of a second. *)
Definition frame_read_by (now t : N) (body : bytes) (W : list (N * bytes)) : N :=
  match body with [] => wait_next (N.max now t) W | _ => N.max now t end.
Lemma attempt_frame : forall c s now t id body W, plain s -> coming c s now ((t, frame id body) :: W) -> short_body body -> Forall (fun q => snd q <> []) W -> (t <= now + 100)%N ->
  exists c', read_stream_c c = (Some (body, id, lenN body), c') /\ coming c' s (frame_read_by now t body W) W.
Proof.
  intros c s now t id body W P C SB NE L. destruct (first_look c s now t (frame id body) W P C (frame_nonempty (id, body)) L) as (c1 & H1 & a & b & EQ & F & LT & A).
  unfold read_stream_c. rewrite H1. cbn [negb]. set (τ := N.max now t) in *. rewrite frame_eq in A. rewrite <- !app_assoc in A.
  set (rest := in_order a) in *. set (len := big_endian 4 (lenN body + 1)) in *.
  assert (NE1 : len ++ [id] ++ body ++ rest <> []) by (intros X; apply app_eq_nil in X as [_ X]; discriminate).
  destruct (peek_static c1 s τ _ b 68 P A NE1 LT) as (c2 & E2 & A2). rewrite E2.
  assert (HD : (lenN (takeN 68 (len ++ [id] ++ body ++ rest)) =? 68)%N && (hd 0%N (takeN 68 (len ++ [id] ++ body ++ rest)) =? 19)%N = false).
  { unfold short_body in SB. destruct (be_head (lenN body + 1) SB) as (h & tl & Eb & Nb). unfold len. rewrite Eb. apply andb_false_iff. right. apply N.eqb_neq.
    unfold takeN. destruct (_ <=? _)%N; [exact Nb|]. change (N.to_nat 68) with 68%nat. exact Nb. }
  rewrite HD. unfold read_frame_c.
  assert (L4 : 4%N = lenN len) by (unfold len, lenN; rewrite be_length; reflexivity).
  destruct (read_static c2 s τ _ b 4 P A2 NE1 LT) as (c3 & E3 & A3). rewrite E3, (takeN_app _ len _ 4 L4). rewrite (dropN_app _ len _ 4 L4) in A3.
  rewrite overlay_full by (unfold len; rewrite be_length; reflexivity). unfold len. rewrite from_be_be by (unfold short_body in SB; change (2 ^ 24)%N with 16777216%N in SB; change (2 ^ 32)%N with 4294967296%N; lia).
  destruct (read_static c3 s τ _ b 1 P A3 ltac:(discriminate) LT) as (c4 & E4 & A4). rewrite E4. rewrite (takeN_app _ [id] _ 1 eq_refl). rewrite (dropN_app _ [id] _ 1 eq_refl) in A4.
  change (hd 0%N (overlay [0%N] [id])) with id. replace (lenN body + 1 =? 0)%N with false by (symmetry; apply N.eqb_neq; lia). rewrite N.add_sub.
  destruct body as [|h body].
  - change (lenN []) with 0%N. destruct (peek_none_body c4 s τ W P) as (c5 & E5 & C5); [exists a, b; auto|exact NE|]. apply (body_at_once 38 1) in E5. change (S 38) with 39%nat in E5. rewrite E5. exists c5. split; [reflexivity|exact C5].
  - destruct (peek_static c4 s τ _ b (lenN (h :: body)) P A4 ltac:(discriminate) LT) as (c5 & E5 & A5). rewrite (takeN_app _ (h :: body) rest) in E5 by reflexivity.
    destruct (read_static c5 s τ _ b (lenN (h :: body)) P A5 ltac:(discriminate) LT) as (c6 & E6 & A6). rewrite (takeN_app _ (h :: body) rest) in E6 by reflexivity.
    rewrite (dropN_app _ (h :: body) rest) in A6 by reflexivity.
    assert (PR : peek_and_read_c (lenN (h :: body)) c4 = (Some (h :: body), c6)) by (unfold peek_and_read_c; rewrite E5, N.eqb_refl, E6, N.eqb_refl; reflexivity).
    apply (body_at_once 38 1) in PR. change (S 38) with 39%nat in PR. rewrite PR. exists c6. split; [reflexivity|]. exists a, b. auto.
Qed.
Lemma attempt_greeting : forall c s now t h W, plain s -> coming c s now ((t, h) :: W) -> List.length h = 68%nat -> hd 0%N h = 19%N -> (t <= now + 100)%N ->
  exists c', read_stream_c c = (Some (h, 19%N, 68%N), c') /\ coming c' s (N.max now t) W.
Proof.
  intros c s now t h W P C L68 H19 L. assert (NH : h <> []) by (intros ->; discriminate).
  destruct (first_look c s now t h W P C NH L) as (c1 & H1 & a & b & EQ & F & LT & A).
  unfold read_stream_c. rewrite H1. cbn [negb]. set (τ := N.max now t) in *.
  assert (NE1 : h ++ in_order a <> []) by (intros X; apply app_eq_nil in X as [X _]; contradiction).
  assert (LN : 68%N = lenN h) by (unfold lenN; rewrite L68; reflexivity).
  destruct (peek_static c1 s τ _ b 68 P A NE1 LT) as (c2 & E2 & A2). rewrite E2, (takeN_app _ h _ 68 LN), <- LN, H19. change ((68 =? 68)%N && (19 =? 19)%N) with true. cbv iota.
  destruct (read_static c2 s τ _ b 68 P A2 NE1 LT) as (c3 & E3 & A3). rewrite E3, (takeN_app _ h _ 68 LN). rewrite (dropN_app _ h _ 68 LN) in A3. rewrite overlay_full by lia.
  exists c3. split; [reflexivity|]. exists a, b. auto.
Qed.
(** An attempt in vain. *)
Lemma attempt_vain : forall c s now W, plain s -> coming c s now W -> Forall (fun q => snd q <> []) W -> later_than (now + 100) W ->
  exists c', read_stream_c c = (None, c') /\ coming c' s (now + 100) W.
Proof.
  intros c s now W P (a & b & EQ & F & A) NE L. destruct a as [|q a].
  - cbn [app] in EQ. subst b. destruct (wait_vain c s now W P A L) as (c1 & W1 & A1). destruct (peek_after_wait c s _ [] W 1 [] c1 P W1 A1) as (c2 & E & A2). cbn [app] in E, A2.
    unfold read_stream_c, has_messages_c. rewrite E. cbn [negb]. exists c2. split; [reflexivity|]. exists [], W. auto.
  - exfalso. rewrite EQ in L. cbn [app later_than] in L. apply Forall_cons_iff in F as [T _]. lia.
Qed.
