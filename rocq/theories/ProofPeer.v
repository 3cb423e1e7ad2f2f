(** ProofPeer: proofs about src/peer (C33-C37) *)
From Verif Require Import Base ModelBencode ModelMessages ModelTorrent ModelTracker ModelStream ModelPeer SpecBencode SpecMessages SpecStream SpecWriter SpecPieces SpecPeer
  ProofBase ProofBencode ProofTorrent ProofMessages ProofWriter ProofPieces ProofStream.

(** ** C33 *)

Lemma find_app' : forall A (f : A -> bool) a b, find f (a ++ b) = match find f a with Some x => Some x | None => find f b end.
Proof. induction a as [|x a IH]; intros b; cbn [find app]; [reflexivity|]. destruct (f x); auto. Qed.

Lemma last_of_cons : forall A (f : A -> bool) x l,
  last_of f (x :: l) = match last_of f l with Some y => Some y | None => if f x then Some x else None end.
Proof. intros. unfold last_of. cbn [rev]. rewrite find_app'. cbn [find]. reflexivity. Qed.

Definition has_size (m : message) : bool := match states_size m with Some _ => true | None => false end.

Lemma apply_fields : forall r m x, parsed r m ->
  p_choked (apply_message x m) = (if choke_or_unchoke r then (fst r =? 0)%N else p_choked x) /\
  p_bitfield (apply_message x m) = (if bitfield_id r then get_bitfield_as_bit_vector (bitfield_from_bytes (snd r)) else p_bitfield x) /\
  p_active (apply_message x m) = (if handshake_id r then bytes_eqb (p_info_hash x) (firstn 20 (skipn 28 (snd r))) else p_active x) /\
  (p_metadata_size (apply_message x m), p_extensions (apply_message x m))
    = match states_size m with Some ne => ne | None => (p_metadata_size x, p_extensions x) end /\
  p_stream (apply_message x m) = p_stream x /\ p_info_hash (apply_message x m) = p_info_hash x /\ p_id (apply_message x m) = p_id x.
Proof.
  intros [id body] m x [len H]. cbn [fst snd] in *. unfold choke_or_unchoke, bitfield_id, handshake_id, apply_message. cbn [fst snd].
  unfold new_raw in H.
  destruct (N.eqb_spec id 2) as [->|N2].
  { injection H as <-. cbn. auto 10. }
  destruct (N.eqb_spec id 5) as [->|N5].
  { injection H as <-. cbn. auto 10. }
  destruct ((id =? 7)%N || (id =? 6)%N) eqn:N67.
  { destruct (request_from_bytes body) as [rq| |]; try discriminate. cbn [obind] in H. injection H as <-.
    apply orb_true_iff in N67 as [E|E]; apply N.eqb_eq in E; subst id; cbn; auto 10. }
  apply orb_false_iff in N67 as [N7 N6].
  destruct (N.eqb_spec id 20) as [->|N20].
  { destruct (extension_from_bytes body) as [[e|]| |]; try discriminate. cbn [obind] in H. injection H as <-.
    cbn [msg_id msg_content N.eqb Pos.eqb orb]. unfold apply_content, states_size, ex_is_handshake, ex_get_metadata_size, ex_get_extensions.
    cbn [msg_content]. destruct (ex_metadata_size e); cbn; auto 10. }
  destruct (N.eqb_spec id 19) as [->|N19].
  { destruct (handshake_from_bytes body) as [h| |] eqn:Eh; try discriminate. cbn [obind] in H. injection H as <-.
    cbn [msg_id msg_content N.eqb Pos.eqb orb]. unfold apply_content, states_size. cbn [msg_content].
    destruct (Nat.lt_ge_cases (List.length body) 68) as [L|L].
    { apply c14_short in L. congruence. }
    destruct (c14_parse body L) as (h' & E' & Hh & _). assert (h' = h) by congruence. subst h'.
    cbn [p_choked p_bitfield p_active p_metadata_size p_extensions p_stream p_info_hash p_id with_active]. rewrite Hh. auto 10. }
  injection H as <-. cbn [msg_id msg_content]. unfold states_size. cbn [msg_content].
  destruct (N.eqb_spec id 0) as [->|N0]; [cbn; auto 10|].
  destruct (N.eqb_spec id 1) as [->|N1]; [cbn; auto 10|].
  rewrite (proj2 (N.eqb_neq id 2) N2), (proj2 (N.eqb_neq id 5) N5), (proj2 (N.eqb_neq id 19) N19), (proj2 (N.eqb_neq id 20) N20).
  cbn [orb]. auto 10.
Qed.

Lemma history_fields : forall raws ms, Forall2 parsed raws ms -> forall x,
  let y := fold_left apply_message ms x in
  p_choked y = match last_of choke_or_unchoke raws with Some r => (fst r =? 0)%N | None => p_choked x end /\
  p_bitfield y = match last_of bitfield_id raws with Some r => get_bitfield_as_bit_vector (bitfield_from_bytes (snd r)) | None => p_bitfield x end /\
  p_active y = match last_of handshake_id raws with Some r => bytes_eqb (p_info_hash x) (firstn 20 (skipn 28 (snd r))) | None => p_active x end /\
  (p_metadata_size y, p_extensions y)
    = match last_of has_size ms with
      | Some m => match states_size m with Some ne => ne | None => (p_metadata_size x, p_extensions x) end
      | None => (p_metadata_size x, p_extensions x) end /\
  p_stream y = p_stream x /\ p_info_hash y = p_info_hash x /\ p_id y = p_id x.
Proof.
  intros raws ms F. induction F as [|r m raws ms P F IH]; intros x; cbn [fold_left].
  - cbn. auto 10.
  - destruct (apply_fields r m x P) as (A1 & A2 & A3 & A4 & A5 & A6 & A7).
    destruct (IH (apply_message x m)) as (B1 & B2 & B3 & B4 & B5 & B6 & B7).
    rewrite !last_of_cons. rewrite B1, B2, B3, B4, B5, B6, B7, A1, A2, A3, A4, A5, A6, A7.
    split; [destruct (last_of choke_or_unchoke raws); [reflexivity|]; destruct (choke_or_unchoke r); reflexivity|].
    split; [destruct (last_of bitfield_id raws); [reflexivity|]; destruct (bitfield_id r); reflexivity|].
    split; [destruct (last_of handshake_id raws); [reflexivity|]; destruct (handshake_id r); reflexivity|].
    split; [|auto].
    destruct (last_of has_size ms) as [m'|] eqn:E.
    + assert (Hm : has_size m' = true) by (apply find_some in E; tauto). unfold has_size in Hm.
      destruct (states_size m'); [reflexivity|discriminate].
    + unfold has_size at 1. destruct (states_size m) eqn:Q; [rewrite Q; reflexivity|reflexivity].
Qed.

Lemma c33 : forall pid s ih raws ms, Forall2 parsed raws ms ->
  let y := fold_left apply_message ms (peer_new pid s ih) in
  p_choked y = match last_of choke_or_unchoke raws with Some r => (fst r =? 0)%N | None => true end /\
  (forall k, nth_error (p_bitfield y) k = match last_of bitfield_id raws with Some r => bit (snd r) k | None => None end) /\
  (p_active y = true <-> exists r, last_of handshake_id raws = Some r /\ firstn 20 (skipn 28 (snd r)) = ih) /\
  (p_metadata_size y, p_extensions y)
    = match last_of (fun m => match states_size m with Some _ => true | None => false end) ms with
      | Some m => match states_size m with Some ne => ne | None => (0%N, []) end
      | None => (0%N, []) end /\
  p_stream y = s /\ p_info_hash y = ih /\ p_id y = pid.
Proof.
  intros pid s ih raws ms F y. destruct (history_fields raws ms F (peer_new pid s ih)) as (B1 & B2 & B3 & B4 & B5 & B6 & B7).
  fold y in B1, B2, B3, B4, B5, B6, B7. split; [exact B1|]. split; [|split; [|split; [exact B4|auto]]].
  - intros k. rewrite B2. destruct (last_of bitfield_id raws) as [r|].
    + apply c12.
    + destruct k; reflexivity.
  - rewrite B3. cbn [peer_new p_info_hash p_active]. destruct (last_of handshake_id raws) as [r|].
    + rewrite bytes_eqb_eq. split; [intros E; exists r; auto|]. intros (r' & E & H). injection E as <-. auto.
    + split; [discriminate|]. intros (r' & E & _). discriminate.
Qed.

(** ** Reading and writing *)

Lemma env_same_out : forall s, same_out s (snd (env_step s)).
Proof. intros s. unfold env_step. destruct (st_sched s) as [|[c| |] r]; cbn [snd]; split; reflexivity. Qed.
Lemma peek_same_out : forall n s, same_out s (snd (peek n s)).
Proof.
  intros n s. unfold peek. pose proof (env_same_out s) as L. destruct (env_step s) as [f s1]. cbn [snd] in L.
  destruct f; [auto|]. destruct (st_avail s1); auto.
Qed.
Lemma read_same_out : forall n s, same_out s (snd (read n s)).
Proof.
  intros n s. unfold read. pose proof (env_same_out s) as L. destruct (env_step s) as [f s1]. cbn [snd] in L.
  destruct f; [auto|]. destruct (st_avail s1); auto.
Qed.
Lemma body_same_out : forall t len s, same_out s (snd (read_body t len s)).
Proof.
  induction t as [|t IH]; intros len s; cbn [read_body]; [apply same_out_refl|]. unfold peek_and_read.
  pose proof (peek_same_out len s) as L1. destruct (peek len s) as [pk s1]. cbn [snd] in L1.
  destruct (_ =? len)%N.
  - pose proof (read_same_out len s1) as L2. destruct (read len s1) as [rd s2]. cbn [snd] in L2.
    destruct (_ =? len)%N; [eapply same_out_trans; eauto|].
    eapply same_out_trans; [exact L1|]. eapply same_out_trans; [exact L2|]. apply IH.
  - eapply same_out_trans; [exact L1|]. apply IH.
Qed.
Lemma frame_same_out : forall s, same_out s (snd (read_frame s)).
Proof.
  intros s. unfold read_frame. pose proof (read_same_out 4 s) as L1. destruct (read 4 s) as [r s1]. cbn [snd] in L1.
  destruct r as [got|]; [|auto]. pose proof (read_same_out 1 s1) as L2. destruct (read 1 s1) as [r2 s2]. cbn [snd] in L2.
  assert (L12 : same_out s s2) by (eapply same_out_trans; eauto).
  destruct r2 as [got1|]; [|auto]. destruct (_ =? 0)%N; [auto|].
  match goal with |- context [read_body 39 ?l s2] => pose proof (body_same_out 39 l s2) as L3; destruct (read_body 39 l s2) as [r3 s3] end.
  cbn [snd] in L3. destruct r3; eapply same_out_trans; eauto.
Qed.
Lemma stream_same_out : forall s, same_out s (snd (read_stream s)).
Proof.
  intros s. unfold read_stream, has_messages. pose proof (peek_same_out 1 s) as L1. destruct (peek 1 s) as [r s1]. cbn [snd] in L1.
  destruct (negb _); [auto|]. pose proof (peek_same_out 68 s1) as L2. destruct (peek 68 s1) as [r2 s2]. cbn [snd] in L2.
  assert (L12 : same_out s s2) by (eapply same_out_trans; eauto).
  destruct r2 as [buf|]; [|eapply same_out_trans; [exact L12|apply frame_same_out]].
  destruct (_ && _); [|eapply same_out_trans; [exact L12|apply frame_same_out]].
  pose proof (read_same_out 68 s2) as L3. destruct (read 68 s2) as [r3 s3]. cbn [snd] in L3.
  destruct r3; eapply same_out_trans; eauto.
Qed.

Lemma read_message_inv : forall x o x1, read_message x = Ret (o, x1) ->
  exists s, x1 = with_stream x s /\ snd (read_stream (p_stream x)) = s /\ same_out (p_stream x) s /\
    (forall m, o = Some m -> exists r, parsed r m) /\
    (o = None \/ exists v, fst (read_stream (p_stream x)) = Some v).
Proof.
  intros x o x1 H. unfold read_message in H. pose proof (stream_same_out (p_stream x)) as S.
  destruct (read_stream (p_stream x)) as [v s] eqn:E. cbn [snd] in S. exists s.
  destruct v as [[[body id] len]|].
  - destruct (new_raw body len id) as [m| |] eqn:R; try discriminate. cbn [obind] in H. injection H as <- <-.
    split; [auto|]. split; [auto|]. split; [auto|]. split; [|right; exists (body, id, len); reflexivity].
    intros m' Hm. destruct m as [m|]; [|discriminate]. injection Hm as <-. exists (id, body), len. exact R.
  - injection H as <- <-. split; [auto|]. split; [auto|]. split; [auto|]. split; [discriminate|auto].
Qed.

Lemma apply_message_fixed : forall x m, p_stream (apply_message x m) = p_stream x /\
  p_info_hash (apply_message x m) = p_info_hash x /\ p_id (apply_message x m) = p_id x.
Proof.
  intros x m. unfold apply_message, apply_content.
  destruct (msg_id m =? 0)%N; [auto|]. destruct (msg_id m =? 1)%N; [auto|].
  destruct (msg_id m =? 2)%N, (msg_id m =? 5)%N, (msg_id m =? 19)%N, (msg_id m =? 20)%N, (msg_content m); auto;
    destruct (ex_is_handshake m0); auto.
Qed.

Lemma apply_with_stream : forall x s m, apply_message (with_stream x s) m = with_stream (apply_message x m) s.
Proof.
  intros x s m. unfold apply_message, apply_content.
  destruct (msg_id m =? 0)%N; [auto|]. destruct (msg_id m =? 1)%N; [auto|].
  destruct (msg_id m =? 2)%N, (msg_id m =? 5)%N, (msg_id m =? 19)%N, (msg_id m =? 20)%N, (msg_content m); auto;
    destruct (ex_is_handshake m0); auto.
Qed.
Lemma fold_with_stream : forall ms x s, fold_left apply_message ms (with_stream x s) = with_stream (fold_left apply_message ms x) s.
Proof. induction ms as [|m ms IH]; intros x s; cbn [fold_left]; [reflexivity|]. rewrite apply_with_stream. apply IH. Qed.

Lemma receives_fold : forall x ms y, receives x ms y ->
  same_out (p_stream x) (p_stream y) /\ (exists raws, Forall2 parsed raws (somes ms)) /\
  exists s, y = with_stream (fold_left apply_message (somes ms) x) s.
Proof.
  intros x ms y H. induction H as [x|x m x1 ms y R H IH|x x1 ms y R H IH].
  - split; [apply same_out_refl|]. split; [exists []; constructor|]. exists (p_stream x). destruct x; reflexivity.
  - apply read_message_inv in R as (s & -> & _ & S & P & _). destruct IH as (S' & (raws & F) & s' & ->).
    split; [|split].
    + eapply same_out_trans; [exact S|]. destruct (apply_message_fixed (with_stream x s) m) as [E _]. rewrite E in S'. exact S'.
    + destruct (P m eq_refl) as [r Pr]. exists (r :: raws). cbn [somes flat_map app]. constructor; auto.
    + exists s'. cbn [somes flat_map app fold_left]. rewrite apply_with_stream, fold_with_stream. reflexivity.
  - apply read_message_inv in R as (s & -> & _ & S & P & _). destruct IH as (S' & (raws & F) & s' & ->).
    split; [eapply same_out_trans; eauto|]. split; [exists raws; exact F|].
    exists s'. cbn [somes flat_map app]. rewrite fold_with_stream. reflexivity.
Qed.

Lemma c33_received : forall pid s ih ms y, receives (peer_new pid s ih) ms y ->
  exists raws, Forall2 parsed raws (somes ms) /\
  p_choked y = match last_of choke_or_unchoke raws with Some r => (fst r =? 0)%N | None => true end /\
  (forall k, nth_error (p_bitfield y) k = match last_of bitfield_id raws with Some r => bit (snd r) k | None => None end) /\
  (p_active y = true <-> exists r, last_of handshake_id raws = Some r /\ firstn 20 (skipn 28 (snd r)) = ih) /\
  (p_metadata_size y, p_extensions y)
    = match last_of (fun m => match states_size m with Some _ => true | None => false end) (somes ms) with
      | Some m => match states_size m with Some ne => ne | None => (0%N, []) end
      | None => (0%N, []) end /\
  p_info_hash y = ih /\ p_id y = pid /\ st_sent (p_stream y) = st_sent s.
Proof.
  intros pid s ih ms y H. destruct (receives_fold _ _ _ H) as ([S _] & (raws & F) & s' & ->).
  exists raws. destruct (c33 pid s ih raws (somes ms) F) as (A & B & C & D & _ & E & G).
  cbn [with_stream p_choked p_bitfield p_active p_metadata_size p_extensions p_info_hash p_id p_stream] in *. auto 10.
Qed.

Lemma send_ok : forall x m, st_wsched (p_stream x) = [] -> send_message x m = after_sending x (message_as_bytes m).
Proof.
  intros x m H. unfold send_message, write_stream, write_all, after_sending. rewrite H. reflexivity.
Qed.

Lemma receives_app : forall x ms y, receives x ms y -> forall ms' z, receives y ms' z -> receives x (ms ++ ms') z.
Proof. intros x ms y H. induction H; intros ms' z R; cbn [app]; [auto| |]; econstructor; eauto. Qed.

Lemma read_apply_receives : forall x y, read_and_apply x = Ret y -> exists o, receives x [o] y.
Proof.
  intros x y H. unfold read_and_apply in H. destruct (read_message x) as [[m x1]| |] eqn:R; try discriminate.
  cbn [obind] in H. injection H as <-. exists m. destruct m as [m|]; econstructor; eauto; constructor.
Qed.

Lemma is_ready_spec : forall x, is_ready x = true <-> ready x.
Proof.
  intros x. unfold is_ready, ready. rewrite andb_true_iff, !negb_true_iff, N.eqb_neq. tauto.
Qed.

Lemma init_rounds_spec : forall n x r y, init_rounds n x = Ret (r, y) ->
  exists ms, receives x ms y /\ (List.length ms <= n)%nat /\
    (forall a b z, ms = a ++ b -> a <> [] -> b <> [] -> receives x a z -> ~ ready z) /\
    ((r = Ok tt /\ ready y /\ ms <> []) \/ (r = Err MEPeerNotReady /\ List.length ms = n /\ (ms = [] \/ ~ ready y))).
Proof.
  assert (DET : forall x a y1, receives x a y1 -> forall y2, receives x a y2 -> y1 = y2).
  { intros x a y1 H. induction H; intros y2 H2; inversion H2; subst; auto;
      match goal with A : read_message ?x = Ret (_, ?p), B : read_message ?x = Ret (_, ?q) |- _ =>
        rewrite A in B; injection B; intros; subst; auto end. }
  induction n as [|n IH]; intros x r y H; cbn [init_rounds] in H.
  - injection H as <- <-. exists []. split; [constructor|]. split; [auto|]. split; [intros a b z E; destruct a; [congruence|discriminate]|].
    right. auto.
  - destruct (read_and_apply x) as [x1| |] eqn:R; try discriminate. cbn [obind] in H.
    destruct (read_apply_receives x x1 R) as [o Ro].
    destruct (is_ready x1) eqn:Rd.
    + injection H as <- <-. exists [o]. split; [auto|]. split; [cbn; lia|]. split.
      * intros a b z E Na Nb. destruct a as [|? [|]]; [congruence| |]; destruct b; try congruence; discriminate.
      * left. rewrite is_ready_spec in Rd. split; [auto|]. split; [auto|discriminate].
    + destruct (IH x1 r y H) as (ms & Rm & L & NR & C). exists (o :: ms).
      assert (NR1 : ~ ready x1) by (rewrite <- is_ready_spec; congruence).
      split; [apply (receives_app _ _ _ Ro _ _ Rm)|]. split; [cbn; lia|]. split.
      * intros a b z E Na Nb Ra. destruct a as [|o' a]; [congruence|]. cbn [app] in E. injection E as <- E.
        destruct a as [|o2 a].
        -- rewrite (DET _ _ _ Ra _ Ro). auto.
        -- apply (NR (o2 :: a) b z E); auto; [discriminate|].
           inversion Ra; subst; inversion Ro; subst;
             (match goal with H1 : read_message x = Ret (_, ?p), H2 : read_message x = Ret (_, ?q) |- _ =>
                rewrite H1 in H2; injection H2; intros; subst end);
             match goal with H : receives _ [] x1 |- _ => inversion H; subst end; assumption.
      * destruct C as [(-> & Ry & _)|(-> & Le & C)]; [left; split; [reflexivity|]; split; [exact Ry|discriminate]|].
        right. split; [auto|]. split; [cbn; lia|]. right. destruct C as [->|C]; [|auto].
        inversion Rm; subst. auto.
Qed.

Lemma c34 : forall pid s ih r y, st_wsched s = [] -> init_peer (peer_new pid s ih) = Ret (r, y) ->
  (exists o, r = Err MEHandshake /\ receives (after_sending (peer_new pid s ih) (handshake_layout ih pid)) [o] y /\
     (forall m h, o = Some m -> msg_content m = CHandshake h -> hs_get_info_hash h <> ih) /\
     st_sent (p_stream y) = st_sent s ++ handshake_layout ih pid)
  \/
  (exists m0 h x1 ms, receives (after_sending (peer_new pid s ih) (handshake_layout ih pid)) [Some m0] x1 /\
     msg_content m0 = CHandshake h /\ hs_get_info_hash h = ih /\
     receives (after_sending x1 (frame 2 [] ++ metadata_handshake_bytes)) ms y /\ (List.length ms <= 10)%nat /\
     (forall a b z, ms = a ++ b -> a <> [] -> b <> [] ->
        receives (after_sending x1 (frame 2 [] ++ metadata_handshake_bytes)) a z -> ~ ready z) /\
     ((r = Ok tt /\ ready y) \/ (r = Err MEPeerNotReady /\ List.length ms = 10%nat /\ ~ ready y)) /\
     st_sent (p_stream y) = st_sent s ++ handshake_layout ih pid ++ frame 2 [] ++ metadata_handshake_bytes).
Proof.
  intros pid s ih r y W H. unfold init_peer in H. cbn [peer_new p_info_hash p_id] in H.
  fold (peer_new pid s ih) in H. set (x := peer_new pid s ih) in *.
  rewrite (send_ok x) in H by exact W. destruct (c14_new ih pid) as [HL _]. rewrite HL in H.
  set (x0 := after_sending x (handshake_layout ih pid)) in *.
  destruct (read_and_apply x0) as [x1| |] eqn:R; try discriminate. cbn [obind] in H.
  pose proof R as RR.
  unfold read_and_apply in R. destruct (read_message x0) as [[o x1']| |] eqn:RM; try discriminate. cbn [obind] in R.
  assert (S1 : same_out (p_stream x0) (p_stream x1)).
  { apply read_message_inv in RM as (s' & -> & _ & S & _). destruct o as [m|]; injection R as <-; [|exact S].
    destruct (apply_message_fixed (with_stream x0 s') m) as [-> _]. exact S. }
  assert (RC : receives x0 [o] x1).
  { destruct o as [m|]; injection R as <-; econstructor; eauto; constructor. }
  destruct (is_active x1) eqn:ACT; cbn [negb] in H.
  - right.
    assert (M : exists m0 h, o = Some m0 /\ msg_content m0 = CHandshake h /\ hs_get_info_hash h = ih).
    { apply read_message_inv in RM as (s' & E & _ & _ & P & _). subst x1'. destruct o as [m0|].
      - injection R as <-. unfold is_active in ACT. rewrite apply_with_stream in ACT. cbn [with_stream p_active] in ACT.
        destruct (P m0 eq_refl) as [[id body] Pr]. destruct (apply_fields (id, body) m0 x0 Pr) as (_ & _ & AC & _).
        rewrite AC in ACT. destruct (handshake_id (id, body)) eqn:HI; [|discriminate].
        unfold handshake_id in HI. cbn [fst snd] in *. apply N.eqb_eq in HI. subst id.
        destruct Pr as [len Pr]. cbn [fst snd] in Pr. destruct (c17_content body len 19 m0 Pr) as (_ & _ & C19 & _).
        destruct (C19 eq_refl) as (h & Ec & Eh). exists m0, h. split; [auto|]. split; [auto|].
        apply bytes_eqb_eq in ACT. destruct (Nat.lt_ge_cases (List.length body) 68) as [L|L].
        { apply c14_short in L. congruence. }
        destruct (c14_parse body L) as (h' & E' & Hh & _). assert (h' = h) by congruence. subst h'. rewrite Hh.
        symmetry. exact ACT.
      - injection R as <-. discriminate. }
    destruct M as (m0 & h & -> & Mc & Mh). 
    assert (W1 : st_wsched (p_stream x1) = []) by (destruct S1 as [_ ->]; exact W).
    rewrite (send_ok x1) in H by auto. rewrite c16_interested in H.
    unfold peer_send_metadata_handshake, send_metadata_handshake_request, write_all in H.
    cbn [after_sending with_stream p_stream st_wsched] in H. rewrite W1 in H. cbn [negb tl] in H.
    match type of H with init_rounds 10 ?z = _ => assert (Z : z = after_sending x1 (frame 2 [] ++ metadata_handshake_bytes)) end.
    { unfold after_sending, with_stream. cbn [p_stream p_id p_choked p_active p_bitfield p_metadata_size p_extensions p_info_hash
        st_avail st_closed st_sched st_wsched st_sent]. rewrite W1, app_assoc. reflexivity. }
    rewrite Z in H. destruct (init_rounds_spec _ _ _ _ H) as (ms & Rm & L & NR & C).
    exists m0, h, x1, ms. split; [auto|]. split; [auto|]. split; [auto|]. split; [auto|]. split; [auto|]. split; [auto|].
    split.
    + destruct C as [(-> & Ry & _)|(-> & Le & C)]; [auto|]. right. split; [auto|]. split; [auto|].
      destruct C as [->|C]; [discriminate|auto].
    + destruct (receives_fold _ _ _ Rm) as ([-> _] & _). destruct S1 as [S1 _].
      cbn [after_sending with_stream p_stream st_sent]. rewrite S1. cbn [x0 after_sending with_stream p_stream st_sent x peer_new].
      rewrite <- app_assoc. reflexivity.
  - left. injection H as <- <-. exists o. split; [auto|]. split; [auto|]. split.
    + intros m h -> Mc Hh. injection R as <-.
      apply read_message_inv in RM as (s' & -> & _ & _ & P & _). destruct (P m eq_refl) as [[id body] Pr].
      destruct (apply_fields (id, body) m (with_stream x0 s') Pr) as (_ & _ & AC & _).
      unfold is_active in ACT. rewrite AC in ACT. unfold handshake_id in ACT. cbn [fst snd] in ACT.
      destruct Pr as [len Pr]. cbn [fst snd] in Pr. destruct (c17_content body len id m Pr) as (C5 & C6 & C19 & C20 & CO).
      destruct (N.eqb_spec id 19) as [->|N19].
      * destruct (C19 eq_refl) as (h' & Ec & Eh). assert (h' = h) by congruence. subst h'.
        destruct (Nat.lt_ge_cases (List.length body) 68) as [L|L]; [apply c14_short in L; congruence|].
        destruct (c14_parse body L) as (h' & E' & Hh' & _). assert (h' = h) by congruence. subst h'.
        rewrite <- Hh', Hh in ACT. cbn [with_stream p_info_hash x0 after_sending x peer_new] in ACT.
        rewrite (proj2 (bytes_eqb_eq ih ih)) in ACT by auto. discriminate.
      * destruct (N.eq_dec id 5) as [->|N5]; [destruct (C5 eq_refl) as (? & ? & _); congruence|].
        destruct (N.eq_dec id 6) as [->|N6]; [destruct (C6 (or_introl eq_refl)) as (? & ? & _); congruence|].
        destruct (N.eq_dec id 7) as [->|N7]; [destruct (C6 (or_intror eq_refl)) as (? & ? & _); congruence|].
        destruct (N.eq_dec id 20) as [->|N20]; [destruct (C20 eq_refl) as (? & ? & _); congruence|].
        destruct CO as (_ & _ & _ & _ & CO); [cbn; intuition congruence|]. apply (CO h Mc).
    + destruct S1 as [-> _]. reflexivity.
Qed.

Lemma c34_pinned : forall pid s ih r y, st_wsched s = [] -> init_peer (peer_new pid s ih) = Ret (r, y) ->
  (exists o, r = Err MEHandshake /\ receives (after_sending (peer_new pid s ih) (handshake_layout ih pid)) [o] y /\
     (forall m h, o = Some m -> msg_content m = CHandshake h -> hs_get_info_hash h <> ih) /\
     st_sent (p_stream y) = st_sent s ++ handshake_layout ih pid)
  \/
  (exists m0 h x1 ms, receives (after_sending (peer_new pid s ih) (handshake_layout ih pid)) [Some m0] x1 /\
     msg_content m0 = CHandshake h /\ hs_get_info_hash h = ih /\
     receives (after_sending x1 (frame 2 [] ++ extension_handshake)) ms y /\ (List.length ms <= 10)%nat /\
     (forall a b z, ms = a ++ b -> a <> [] -> b <> [] ->
        receives (after_sending x1 (frame 2 [] ++ extension_handshake)) a z -> ~ ready z) /\
     ((r = Ok tt /\ ready y) \/ (r = Err MEPeerNotReady /\ List.length ms = 10%nat /\ ~ ready y)) /\
     st_sent (p_stream y) = st_sent s ++ handshake_layout ih pid ++ frame 2 [] ++ extension_handshake).
Proof. rewrite <- c16_extension_handshake. exact c34. Qed.

(** ** C35, C36: downloads *)

Lemma exchange_det : forall ask x es y, exchange ask x es y -> forall y2, exchange ask x es y2 -> y = y2.
Proof.
  intros ask x es y H. induction H; intros y2 H2; inversion H2; subst; auto;
    match goal with
    | A : read_message ?x = Ret (_, ?p), B : read_message ?x = Ret (_, ?q) |- _ => rewrite A in B; injection B; intros; subst; auto
    | A : ?ask ?x ?n = Ret ?p, B : ?ask ?x ?n = Ret ?q |- _ => rewrite A in B; injection B; intros; subst; auto
    end.
Qed.
Lemma exchange_app_inv : forall ask a x b y, exchange ask x (a ++ b) y -> exists z, exchange ask x a z /\ exchange ask z b y.
Proof.
  induction a as [|e a IH]; intros x b y H; cbn [app] in H; [exists x; split; [constructor|auto]|].
  inversion H; subst; match goal with Q : exchange _ _ (a ++ b) y |- _ => destruct (IH _ _ _ Q) as (z & A & B) end;
    exists z; (split; [econstructor; eauto|auto]).
Qed.
Lemma exchange_app : forall ask x a z, exchange ask x a z -> forall b y, exchange ask z b y -> exchange ask x (a ++ b) y.
Proof. intros ask x a z H. induction H; intros b y' B; cbn [app]; [auto| | |]; econstructor; eauto. Qed.

Lemma wanted_app : forall f a b, wanted f (a ++ b) = wanted f a ++ wanted f b.
Proof. intros. unfold wanted. apply flat_map_app. Qed.
Lemma asked_app : forall a b, asked (a ++ b) = asked a ++ asked b.
Proof. intros. unfold asked. apply flat_map_app. Qed.
Lemma attempts_app : forall a b, attempts (a ++ b) = attempts a ++ attempts b.
Proof. intros. unfold attempts. apply flat_map_app. Qed.
Lemma countN_app : forall A (a b : list A), countN (a ++ b) = (countN a + countN b)%N.
Proof. intros. unfold countN. rewrite app_length. lia. Qed.
Lemma countN_cons : forall A (a : A) b, countN (a :: b) = (1 + countN b)%N.
Proof. intros. unfold countN. cbn [List.length]. lia. Qed.


Lemma countN_1 : forall A (a : A), countN [a] = 1%N.
Proof. reflexivity. Qed.
Lemma countN_0 : forall A, countN (@nil A) = 0%N.
Proof. reflexivity. Qed.

(** The run of a download, round by round. *)
Section Run.
Variable filter : message -> bool.
Variable next : peer -> N -> outcome peer.

(** Reading: event, peer, buffer, idle counter. *)
Inductive reading (x : peer) (b : msg_buffer) (idle : N) : event -> peer -> msg_buffer -> N -> Prop :=
| reading_some : forall m x1, read_message x = Ret (Some m, x1) ->
    reading x b idle (Got m) (apply_message x1 m) (push_message filter b m) 0
| reading_none : forall x1, read_message x = Ret (None, x1) -> reading x b idle Silence x1 b idle.
(** Asking. *)
Inductive asking (x : peer) (b : msg_buffer) : list event -> peer -> msg_buffer -> Prop :=
| asking_not : mb_expected_size b = (lenN (mb_buffer b) + 1)%N -> asking x b [] x b
| asking_one : forall x1, mb_expected_size b <> (lenN (mb_buffer b) + 1)%N -> next x (lenN (mb_buffer b)) = Ret x1 ->
    asking x b [Asked (lenN (mb_buffer b))] x1
      {| mb_buffer := mb_buffer b; mb_capacity := mb_capacity b; mb_expected_size := mb_expected_size b + 1 |}.
Inductive run : peer -> msg_buffer -> N -> list event -> result bytes download_error -> peer -> Prop :=
| run_full : forall x b idle e x1 b1 i1, reading x b idle e x1 b1 i1 -> is_full b1 = true ->
    run x b idle [e] (Ok (assemble_content b1)) x1
| run_choke : forall x b idle e x1 b1 i1, reading x b idle e x1 b1 i1 -> is_full b1 = false -> p_choked x1 = true ->
    run x b idle [e] (Err ChokedPeer) x1
| run_idle : forall x b idle e x1 b1 i1 t x2 b2, reading x b idle e x1 b1 i1 -> is_full b1 = false -> p_choked x1 = false ->
    asking x1 b1 t x2 b2 -> (10 < i1 + 1)%N -> run x b idle (e :: t) (Err Idle) x2
| run_more : forall x b idle e x1 b1 i1 t x2 b2 es r y, reading x b idle e x1 b1 i1 -> is_full b1 = false -> p_choked x1 = false ->
    asking x1 b1 t x2 b2 -> (i1 + 1 <= 10)%N -> run x2 b2 (i1 + 1) es r y -> run x b idle (e :: t ++ es) r y.

Lemma execute_run : forall fuel x b idle r y, execute fuel filter next x b idle = Ret (r, y) ->
  exists es, run x b idle es r y.
Proof.
  induction fuel as [|f IH]; intros x b idle r y H; cbn [execute] in H; [discriminate|].
  destruct (read_message x) as [[m x1]| |] eqn:R; try discriminate. cbn [obind] in H.
  assert (RD : exists e x2 b1 i1, reading x b idle e x2 b1 i1 /\
    match m with Some m => (apply_message x1 m, push_message filter b m, 0%N) | None => (x1, b, idle) end = (x2, b1, i1)).
  { destruct m as [m|]; eexists _, _, _, _; (split; [econstructor; eauto|reflexivity]). }
  destruct RD as (e & x2 & b1 & i1 & RD & E). rewrite E in H.
  destruct (is_full b1) eqn:F.
  { injection H as <- <-. exists [e]. eapply run_full; eauto. }
  unfold is_choked in H. destruct (p_choked x2) eqn:C.
  { injection H as <- <-. exists [e]. eapply run_choke; eauto. }
  destruct (request_next_message next b1 x2) as [[b2 x3]| |] eqn:Q; try discriminate. cbn [obind] in H.
  assert (A : exists t, asking x2 b1 t x3 b2).
  { unfold request_next_message in Q. rewrite F, orb_false_r in Q. unfold is_len_as_expected in Q.
    destruct (N.eqb_spec (mb_expected_size b1) (lenN (mb_buffer b1) + 1)) as [E1|E1].
    - injection Q as <- <-. eexists. constructor. exact E1.
    - destruct (next x2 (lenN (mb_buffer b1))) as [x3'| |] eqn:Nx; try discriminate. cbn [obind] in Q. injection Q as <- <-.
      eexists. constructor; eauto. }
  destruct A as [t A]. destruct (N.ltb_spec 10 (i1 + 1)) as [L|L].
  - injection H as <- <-. eexists. eapply run_idle; eauto.
  - destruct (IH _ _ _ _ _ H) as [es Res]. eexists. eapply run_more; eauto.
Qed.

Lemma reading_exchange : forall x b idle e x1 b1 i1, reading x b idle e x1 b1 i1 ->
  forall es y, exchange next x1 es y -> exchange next x (e :: es) y.
Proof. intros. inversion H; subst; econstructor; eauto. Qed.
Lemma asking_exchange : forall x b t x1 b1, asking x b t x1 b1 ->
  forall es y, exchange next x1 es y -> exchange next x (t ++ es) y.
Proof. intros. inversion H; subst; cbn [app]; [auto|]; econstructor; eauto. Qed.
Lemma run_exchange : forall x b idle es r y, run x b idle es r y -> exchange next x es y.
Proof.
  intros x b idle es r y H. induction H as [? ? ? ? ? ? ? R F|? ? ? ? ? ? ? R F C|? ? ? ? ? ? ? ? ? ? R F C A|? ? ? ? ? ? ? ? ? ? ? ? ? R F C A L H IH];
    eapply reading_exchange; eauto using ex_nothing.
  - rewrite <- (app_nil_r t). eapply asking_exchange; eauto using ex_nothing.
  - eapply asking_exchange; eauto.
Qed.

(** The buffer after reading, when it was not full. *)
Lemma reading_buffer : forall x b idle e x1 b1 i1, reading x b idle e x1 b1 i1 ->
  (lenN (mb_buffer b) < mb_capacity b)%N ->
  mb_buffer b1 = mb_buffer b ++ wanted filter [e] /\ mb_capacity b1 = mb_capacity b /\
  mb_expected_size b1 = mb_expected_size b /\ asked [e] = [] /\ is_read e /\ (countN (wanted filter [e]) <= 1)%N.
Proof.
  intros x b idle e x1 b1 i1 H L. inversion H; subst; cbn [wanted flat_map asked app is_read].
  - unfold push_message, is_full. destruct (N.eqb_spec (lenN (mb_buffer b)) (mb_capacity b)); [lia|]. cbn [negb]. rewrite andb_true_r.
    destruct (filter m); cbn [mb_buffer mb_capacity mb_expected_size]; rewrite ?app_nil_r; repeat split; auto; cbn; lia.
  - rewrite app_nil_r. repeat split; auto. cbn. lia.
Qed.
Lemma asking_buffer : forall x b t x1 b1, asking x b t x1 b1 ->
  mb_buffer b1 = mb_buffer b /\ mb_capacity b1 = mb_capacity b /\
  mb_expected_size b1 = (mb_expected_size b + countN (asked t))%N /\ wanted filter t = [] /\ attempts t = [] /\
  (mb_expected_size b <= lenN (mb_buffer b) + 1 -> mb_expected_size b1 <= lenN (mb_buffer b) + 1)%N /\
  ((t = [] /\ mb_expected_size b = lenN (mb_buffer b) + 1) \/
   (t = [Asked (lenN (mb_buffer b))] /\ mb_expected_size b <> lenN (mb_buffer b) + 1))%N.
Proof.
  intros x b t x1 b1 H. inversion H; subst; cbn [mb_buffer mb_capacity mb_expected_size asked flat_map app wanted attempts].
  - repeat split; auto. cbn. lia.
  - repeat split; auto. cbn. lia.
Qed.

Lemma lenN_app : forall A (a b : list A), lenN (a ++ b) = (lenN a + lenN b)%N.
Proof. intros. unfold lenN. rewrite app_length. lia. Qed.
Lemma lenN_countN : forall A (a : list A), lenN a = countN a.
Proof. reflexivity. Qed.

(** Facts at the boundary between rounds, for inductions. *)
Lemma round_buffer : forall x b idle e x1 b1 i1 t x2 b2, reading x b idle e x1 b1 i1 -> is_full b1 = false ->
  asking x1 b1 t x2 b2 -> (lenN (mb_buffer b) < mb_capacity b)%N -> (mb_expected_size b <= lenN (mb_buffer b) + 1)%N ->
  mb_buffer b2 = mb_buffer b ++ wanted filter (e :: t) /\ mb_capacity b2 = mb_capacity b /\
  mb_expected_size b2 = (mb_expected_size b + countN (asked (e :: t)))%N /\
  (lenN (mb_buffer b2) < mb_capacity b2)%N /\ (mb_expected_size b2 <= lenN (mb_buffer b2) + 1)%N /\
  (forall n, In (Asked n) (e :: t) -> t = [Asked n] /\ n = lenN (mb_buffer b2) /\ mb_expected_size b <> n + 1)%N /\
  (t = [] -> mb_expected_size b = lenN (mb_buffer b2) + 1)%N.
Proof.
  intros x b idle e x1 b1 i1 t x2 b2 R F A L E.
  destruct (reading_buffer _ _ _ _ _ _ _ R L) as (B1 & B2 & B3 & B4 & B5 & B6).
  destruct (asking_buffer _ _ _ _ _ A) as (C1 & C2 & C3 & C4 & C5 & C6 & C7).
  change (e :: t) with ([e] ++ t). rewrite wanted_app, asked_app, C4, B4, app_nil_r. cbn [app].
  assert (FF : (lenN (mb_buffer b1) < mb_capacity b1)%N).
  { unfold is_full in F. apply N.eqb_neq in F. rewrite B1, B2, lenN_app, (lenN_countN _ (wanted filter [e])) in *. lia. }
  assert (LE : (lenN (mb_buffer b) <= lenN (mb_buffer b1))%N) by (rewrite B1, lenN_app; lia).
  rewrite C1, C2, C3, B3, B1 in *. split; [auto|]. split; [auto|]. split; [auto|]. rewrite B2 in *. split; [auto|].
  split; [lia|]. split.
  - intros n I. destruct I as [I|I]; [subst e; contradiction|]. destruct C7 as [(-> & _)|(-> & D)]; [contradiction|].
    destruct I as [I|[]]. injection I as <-. auto.
  - intros ->. destruct C7 as [(_ & D)|(D & _)]; [auto|discriminate].
Qed.

Lemma split_in_round : forall (e : event) t es a x c, e :: t ++ es = a ++ x :: c -> is_read e -> ~ is_read x ->
  (exists a', a = e :: a' /\ exists t2, t = a' ++ x :: t2 /\ c = t2 ++ es) \/
  (exists a', a = e :: t ++ a' /\ es = a' ++ x :: c).
Proof.
  intros e t es a x c H R N. destruct a as [|e' a]; cbn [app] in H.
  { injection H as -> _. contradiction. }
  injection H as <- H. revert a H. induction t as [|y t IH]; intros a H; cbn [app] in H.
  - right. exists a. auto.
  - destruct a as [|y' a]; cbn [app] in H; injection H as <- H.
    + left. exists []. split; [auto|]. exists t. auto.
    + destruct (IH a H) as [(a' & E & t2 & T & C)|(a' & E & Q)].
      * injection E as <-. left. exists (y :: a). split; [auto|]. exists t2. rewrite T. auto.
      * injection E as ->. right. exists a'. auto.
Qed.

(** Requests. *)
Lemma run_requests : forall x b idle es r y, run x b idle es r y ->
  (lenN (mb_buffer b) < mb_capacity b)%N -> (mb_expected_size b <= lenN (mb_buffer b) + 1)%N ->
  forall a n c, es = a ++ Asked n :: c ->
    n = (lenN (mb_buffer b) + countN (wanted filter a))%N /\ (n < mb_capacity b)%N /\
    (mb_expected_size b + countN (asked a) <= n)%N.
Proof.
  intros x b idle es r y H.
  induction H as [x b idle e x1 b1 i1 R F|x b idle e x1 b1 i1 R F C|x b idle e x1 b1 i1 t x2 b2 R F C A L|x b idle e x1 b1 i1 t x2 b2 es r y R F C A L H IH];
    intros LB LE a n c Eq.
  - destruct (reading_buffer _ _ _ _ _ _ _ R LB) as (_ & _ & _ & _ & B5 & _).
    destruct a as [|? [|]]; try discriminate. injection Eq as ->. contradiction.
  - destruct (reading_buffer _ _ _ _ _ _ _ R LB) as (_ & _ & _ & _ & B5 & _).
    destruct a as [|? [|]]; try discriminate. injection Eq as ->. contradiction.
  - destruct (reading_buffer _ _ _ _ _ _ _ R LB) as (_ & _ & _ & _ & B5 & _).
    destruct (round_buffer _ _ _ _ _ _ _ _ _ _ R F A LB LE) as (D1 & D2 & D3 & D4 & D5 & D6 & D7).
    rewrite <- (app_nil_r t) in Eq. destruct (split_in_round e t [] a (Asked n) c Eq B5) as [(a' & -> & t2 & T & _)|(a' & _ & E)];
      [cbn; auto| |destruct a'; discriminate].
    destruct (D6 n) as (Et & -> & Ne); [right; rewrite T; apply in_or_app; right; left; auto|].
    rewrite Et in T. destruct a' as [|? [|]]; try discriminate. injection T as <-.
    subst t. change [e; Asked (lenN (mb_buffer b2))] with ([e] ++ [Asked (lenN (mb_buffer b2))]) in *.
    rewrite wanted_app, app_nil_r in D1. rewrite asked_app in D3. 
    destruct (reading_buffer _ _ _ _ _ _ _ R LB) as (_ & _ & _ & B4 & _). rewrite B4 in *. cbn [asked flat_map app] in D3.
    rewrite D1 in *. rewrite lenN_app in *. rewrite (lenN_countN _ (wanted filter [e])) in *.
    rewrite countN_1 in D3. rewrite countN_0. lia.
  - destruct (reading_buffer _ _ _ _ _ _ _ R LB) as (_ & _ & _ & B4 & B5 & _).
    destruct (round_buffer _ _ _ _ _ _ _ _ _ _ R F A LB LE) as (D1 & D2 & D3 & D4 & D5 & D6 & D7).
    destruct (split_in_round e t es a (Asked n) c Eq B5) as [(a' & -> & t2 & T & _)|(a' & -> & E)]; [cbn; auto| |].
    + destruct (D6 n) as (Et & -> & Ne); [right; rewrite T; apply in_or_app; right; left; auto|].
      rewrite Et in T. destruct a' as [|? [|]]; try discriminate. injection T as <-.
      subst t. change [e; Asked (lenN (mb_buffer b2))] with ([e] ++ [Asked (lenN (mb_buffer b2))]) in *.
      rewrite wanted_app, app_nil_r in D1. rewrite asked_app, B4 in D3. cbn [asked flat_map app] in D3. rewrite B4.
      rewrite D1 in *. rewrite lenN_app in *. rewrite (lenN_countN _ (wanted filter [e])) in *.
      rewrite countN_1 in D3. rewrite countN_0. lia.
    + destruct (IH D4 D5 a' n c E) as (G1 & G2 & G3). change (e :: t ++ a') with ((e :: t) ++ a').
      rewrite wanted_app, asked_app, !countN_app. rewrite D1, lenN_app, lenN_countN in G1. rewrite D2 in G2. rewrite D3 in G3.
      rewrite (lenN_countN _ (wanted filter (e :: t))) in G1. rewrite lenN_countN. lia.
Qed.

(** Results. *)
Lemma run_result : forall x b idle es r y, run x b idle es r y ->
  (lenN (mb_buffer b) < mb_capacity b)%N -> (mb_expected_size b <= lenN (mb_buffer b) + 1)%N ->
  match r with
  | Ok d => d = flat_map get_content_data (mb_buffer b ++ wanted filter es) /\
            (lenN (mb_buffer b) + countN (wanted filter es) = mb_capacity b)%N /\
            exists a m, es = a ++ [Got m] /\ filter m = true
  | Err ChokedPeer => p_choked y = true /\ (lenN (mb_buffer b) + countN (wanted filter es) < mb_capacity b)%N /\
                      exists a e, es = a ++ [e] /\ is_read e
  | Err Idle => (lenN (mb_buffer b) + countN (wanted filter es) < mb_capacity b)%N
  end.
Proof.
  intros x b idle es r y H.
  induction H as [x b idle e x1 b1 i1 R F|x b idle e x1 b1 i1 R F C|x b idle e x1 b1 i1 t x2 b2 R F C A L|x b idle e x1 b1 i1 t x2 b2 es r y R F C A L H IH];
    intros LB LE; destruct (reading_buffer _ _ _ _ _ _ _ R LB) as (B1 & B2 & B3 & B4 & B5 & B6); unfold is_full in F.
  - apply N.eqb_eq in F. unfold assemble_content. rewrite B1, B2, lenN_app, !lenN_countN in F. split; [now rewrite B1|].
    split; [exact F|].
    destruct e as [m| |]; cbn [wanted flat_map app] in *.
    + exists [], m. split; [auto|]. destruct (filter m); [auto|]. rewrite countN_0 in F. rewrite lenN_countN in LB. lia.
    + rewrite countN_0 in F. rewrite lenN_countN in LB. lia.
    + contradiction.
  - split; [auto|]. split; [|exists [], e; auto]. apply N.eqb_neq in F. rewrite B1, B2, lenN_app in F.
    rewrite (lenN_countN _ (wanted filter [e])) in F. lia.
  - assert (F' : is_full b1 = false) by exact F.
    destruct (round_buffer _ _ _ _ _ _ _ _ _ _ R F' A LB LE) as (D1 & D2 & D3 & D4 & D5 & D6 & D7).
    rewrite D1, D2, lenN_app in D4. exact D4.
  - assert (F' : is_full b1 = false) by exact F.
    destruct (round_buffer _ _ _ _ _ _ _ _ _ _ R F' A LB LE) as (D1 & D2 & D3 & D4 & D5 & D6 & D7).
    specialize (IH D4 D5). change (e :: t ++ es) with ((e :: t) ++ es). rewrite wanted_app, countN_app. 
    rewrite D1, D2, lenN_app, (lenN_countN _ (wanted filter (e :: t))) in IH. rewrite N.add_assoc, app_assoc. destruct r as [d|[|]].
    + destruct IH as (I1 & I2 & a & m & -> & I3). split; [auto|]. split; [auto|]. exists ((e :: t) ++ a), m. rewrite app_assoc. auto.
    + destruct IH as (I1 & I2 & a & e' & -> & I3). split; [auto|]. split; [auto|]. exists ((e :: t) ++ a), e'. rewrite app_assoc. auto.
    + exact IH.
Qed.

Lemma next_number : forall b b2 n e, asked [e] = [] -> (countN (wanted filter [e]) <= 1)%N ->
  mb_buffer b2 = mb_buffer b ++ wanted filter [e; Asked n] ->
  mb_expected_size b2 = (mb_expected_size b + countN (asked [e; Asked n]))%N ->
  (mb_expected_size b2 <= lenN (mb_buffer b2) + 1)%N -> (mb_expected_size b = lenN (mb_buffer b) + 1)%N -> n = lenN (mb_buffer b2) ->
  n = (mb_expected_size b + N.of_nat 0)%N.
Proof.
  intros b b2 n e B4 B6 D1 D3 D5 LE En. change [e; Asked n] with ([e] ++ [Asked n]) in *.
  rewrite asked_app, B4 in D3. rewrite wanted_app in D1. change (wanted filter [Asked n]) with (@nil message) in D1. rewrite app_nil_r in D1.
  change (countN ([] ++ asked [Asked n])) with 1%N in D3.
  assert (lenN (mb_buffer b2) = lenN (mb_buffer b) + countN (wanted filter [e]))%N by (rewrite D1; apply lenN_app). lia.
Qed.

(** Asking for 0, 1, 2, ... once each, from a state where one block is outstanding. *)
Lemma run_sequence : forall x b idle es r y, run x b idle es r y ->
  (lenN (mb_buffer b) < mb_capacity b)%N -> (mb_expected_size b = lenN (mb_buffer b) + 1)%N ->
  asked es = map (fun k => mb_expected_size b + N.of_nat k)%N (seq 0 (List.length (asked es))) /\
  (forall d, r = Ok d -> mb_expected_size b + countN (asked es) = mb_capacity b)%N.
Proof.
  intros x b idle es r y H.
  induction H as [x b idle e x1 b1 i1 R F|x b idle e x1 b1 i1 R F C|x b idle e x1 b1 i1 t x2 b2 R F C A L|x b idle e x1 b1 i1 t x2 b2 es r y R F C A L H IH];
    intros LB LE; destruct (reading_buffer _ _ _ _ _ _ _ R LB) as (B1 & B2 & B3 & B4 & B5 & B6).
  - rewrite B4. split; [reflexivity|]. intros d _. unfold is_full in F. apply N.eqb_eq in F.
    rewrite B1, B2, lenN_app, (lenN_countN _ (wanted filter [e])) in F. cbn. lia.
  - rewrite B4. split; [reflexivity|]. discriminate.
  - destruct (round_buffer _ _ _ _ _ _ _ _ _ _ R F A LB ltac:(lia)) as (D1 & D2 & D3 & D4 & D5 & D6 & D7).
    split; [|discriminate]. change (e :: t) with ([e] ++ t). rewrite asked_app, B4. cbn [app].
    destruct t as [|[| |n] [|]]; try reflexivity; try (inversion A; fail).
    cbn [asked flat_map app List.length seq map]. destruct (D6 n) as (_ & En & Ne); [cbn; auto|].
    f_equal. apply (next_number b b2 n e); auto.
  - destruct (round_buffer _ _ _ _ _ _ _ _ _ _ R F A LB ltac:(lia)) as (D1 & D2 & D3 & D4 & D5 & D6 & D7).
    assert (E2 : mb_expected_size b2 = (lenN (mb_buffer b2) + 1)%N).
    { destruct t as [|[| |n] [|]]; try (inversion A; fail).
      - specialize (D7 eq_refl). change [e] with ([e] ++ []) in D3. rewrite asked_app, B4 in D3. cbn in D3. lia.
      - destruct (D6 n) as (_ & -> & Ne); [cbn; auto|]. change (e :: [Asked (lenN (mb_buffer b2))]) with ([e] ++ [Asked (lenN (mb_buffer b2))]) in *.
        pose proof (next_number b b2 _ e B4 B6 D1 D3 D5 LE eq_refl) as Q. rewrite asked_app, B4 in D3. cbn in D3. lia. }
    destruct (IH D4 E2) as [I1 I2]. change (e :: t ++ es) with ([e] ++ t ++ es). rewrite !asked_app, B4. cbn [app].
    destruct t as [|[| |n] [|]]; try (inversion A; fail).
    + cbn [asked flat_map app]. change [e] with ([e] ++ []) in D3. rewrite asked_app, B4 in D3.
      cbn [asked flat_map app countN List.length] in D3. rewrite N.add_0_r in D3. rewrite <- D3, <- D2. auto.
    + destruct (D6 n) as (_ & En & Ne); [cbn; auto|].
      assert (En' : n = mb_expected_size b).
      { pose proof (next_number b b2 _ e B4 B6 D1 D3 D5 LE En). lia. }
      change (e :: [Asked n]) with ([e] ++ [Asked n]) in D3. rewrite asked_app, B4 in D3. cbn in D3.
      cbn [asked flat_map app List.length seq map]. fold (asked es). split.
      * f_equal; [lia|]. rewrite I1 at 1. rewrite <- seq_shift, map_map. apply map_ext. intros k. lia.
      * intros d E. specialize (I2 d E). rewrite countN_cons. rewrite D2 in I2. lia.
Qed.

(** Choking. *)
Lemma run_choking : forall x b idle es r y, run x b idle es r y ->
  (forall a e c z, es = a ++ e :: c -> c <> [] -> is_read e -> exchange next x (a ++ [e]) z -> p_choked z = false) /\
  (r = Err Idle -> exists a e z, (es = a ++ [e] \/ exists n, es = a ++ [e; Asked n]) /\ is_read e /\
     exchange next x (a ++ [e]) z /\ p_choked z = false).
Proof.
  intros x b idle es r y H.
  induction H as [x b idle e x1 b1 i1 R F|x b idle e x1 b1 i1 R F C|x b idle e x1 b1 i1 t x2 b2 R F C A L|x b idle e x1 b1 i1 t x2 b2 es r y R F C A L H IH].
  - split; [|discriminate]. intros a e' c z E N. destruct a as [|? [|]]; try discriminate. injection E as _ <-. congruence.
  - split; [|discriminate]. intros a e' c z E N. destruct a as [|? [|]]; try discriminate. injection E as _ <-. congruence.
  - assert (X1 : exchange next x [e] x1) by (eapply reading_exchange; eauto using ex_nothing).
    split.
    + intros a e' c z E N IR X. destruct a as [|e0 a].
      * cbn [app] in *. injection E as <- _. rewrite (exchange_det _ _ _ _ X _ X1). auto.
      * injection E as <- E. assert (T : t = [] \/ exists n, t = [Asked n]) by (inversion A; eauto).
        destruct T as [->|[n ->]]; destruct a as [|? [|]]; try discriminate. injection E as <- _. contradiction.
    + intros _. exists [], e, x1. split; [|split; [|auto]].
      * inversion A; subst; [left; auto|right; eexists; reflexivity].
      * inversion R; cbn; auto.
  - destruct IH as [I1 I2]. assert (X1 : exchange next x [e] x1) by (eapply reading_exchange; eauto using ex_nothing).
    assert (X2 : exchange next x (e :: t) x2).
    { eapply reading_exchange; eauto. rewrite <- (app_nil_r t). eapply asking_exchange; eauto using ex_nothing. }
    split.
    + intros a e' c z E N IR X. destruct a as [|e0 a].
      * cbn [app] in *. injection E as <- _. rewrite (exchange_det _ _ _ _ X _ X1). auto.
      * injection E as <- E. assert (Q : exists a', a = t ++ a' /\ es = a' ++ e' :: c).
        { assert (T : t = [] \/ exists n, t = [Asked n]) by (inversion A; eauto).
          destruct T as [->|[n ->]]; [exists a; auto|]. destruct a as [|? a]; cbn [app] in E; injection E as <- E; [contradiction|].
          exists a. auto. }
        destruct Q as (a' & -> & Ees). change ((e :: t ++ a') ++ [e']) with (e :: (t ++ a') ++ [e']) in X.
        rewrite <- app_assoc in X. change (e :: t ++ a' ++ [e']) with ((e :: t) ++ a' ++ [e']) in X.
        apply exchange_app_inv in X as (w & W1 & W2). rewrite (exchange_det _ _ _ _ W1 _ X2) in W2.
        eapply I1; eauto.
    + intros Er. destruct (I2 Er) as (a & e' & z & Q & IR & X & Cz). exists (e :: t ++ a), e', z.
      split; [|split; [auto|split; [|auto]]].
      * destruct Q as [->|[n ->]]; [left|right; exists n]; cbn [app]; rewrite <- app_assoc; reflexivity.
      * change ((e :: t ++ a) ++ [e']) with ((e :: (t ++ a) ++ [e'])). rewrite <- app_assoc.
        change (e :: t ++ a ++ [e']) with ((e :: t) ++ a ++ [e']). eapply exchange_app; eauto.
Qed.

(** Silence. *)
Lemma run_silence : forall x b idle es r y, run x b idle es r y -> (idle <= 10)%N ->
  (forall k c, attempts es = repeat false k ++ c -> (N.of_nat k + idle <= 11)%N) /\
  (forall a k c, attempts es = a ++ true :: repeat false k ++ c -> (k <= 10)%nat) /\
  (r = Err Idle ->
     (exists k, attempts es = repeat false k /\ (N.of_nat k + idle = 11)%N) \/
     (exists a, attempts es = a ++ true :: repeat false 10)).
Proof.
  intros x b idle es r y H.
  assert (RA : forall x b idle e x1 b1 i1, reading x b idle e x1 b1 i1 ->
    (attempts [e] = [true] /\ i1 = 0%N) \/ (attempts [e] = [false] /\ i1 = idle)) by (intros ? ? ? ? ? ? ? Q; inversion Q; auto).
  assert (S1 : forall v l k (c : list bool), v :: l = repeat false k ++ c -> k = 0%nat \/ (v = false /\ exists k', k = S k' /\ l = repeat false k' ++ c)).
  { intros v l [|k] c E; [auto|]. cbn [repeat app] in E. injection E as -> ->. right. eauto. }
  induction H as [x b idle e x1 b1 i1 R F|x b idle e x1 b1 i1 R F C|x b idle e x1 b1 i1 t x2 b2 R F C A L|x b idle e x1 b1 i1 t x2 b2 es r y R F C A L H IH];
    intros LI.
  1, 2: assert (Q : exists v, attempts [e] = [v]) by (destruct (RA _ _ _ _ _ _ _ R) as [[-> _]|[-> _]]; eauto); destruct Q as [v ->];
    (split; [|split; [|discriminate]]);
    [intros k c E; destruct (S1 _ _ _ _ E) as [->|(_ & k' & -> & E')]; [lia|]; destruct k'; [lia|discriminate]
    |intros a k c E; destruct a as [|? [|]]; try discriminate; injection E as _ E; destruct k; [lia|discriminate]].
  - assert (TA : attempts t = []) by (inversion A; auto).
    change (e :: t) with ([e] ++ t). rewrite attempts_app, TA, app_nil_r.
    destruct (RA _ _ _ _ _ _ _ R) as [[-> ->]|[-> ->]]; [lia|].
    split; [|split].
    + intros k c E; destruct (S1 _ _ _ _ E) as [->|(_ & k' & -> & E')]; [lia|]; destruct k'; [lia|discriminate].
    + intros a k c E; destruct a as [|? [|]]; discriminate.
    + intros _. left. exists 1%nat. split; [auto|lia].
  - assert (TA : attempts t = []) by (inversion A; auto).
    change (e :: t ++ es) with ([e] ++ t ++ es). rewrite !attempts_app, TA. cbn [app].
    destruct (IH L) as (I1 & I2 & I3). destruct (RA _ _ _ _ _ _ _ R) as [[-> ->]|[-> ->]]; cbn [app].
    + split; [|split].
      * intros k c E. destruct (S1 _ _ _ _ E) as [->|(D & _)]; [lia|discriminate].
      * intros a k c E. destruct a as [|v a]; cbn [app] in E; [|injection E as <- E; eauto].
        injection E as E. specialize (I1 k c E). lia.
      * intros Er. right. destruct (I3 Er) as [(k & E & Ek)|(a & ->)]; [|exists (true :: a); reflexivity].
        assert (k = 10%nat) by lia. subst k. exists []. rewrite E. reflexivity.
    + split; [|split].
      * intros k c E. destruct (S1 _ _ _ _ E) as [->|(_ & k' & -> & E')]; [lia|]. specialize (I1 k' c E'). lia.
      * intros a k c E. destruct a as [|v a]; cbn [app] in E; [discriminate|]. injection E as <- E. eauto.
      * intros Er. destruct (I3 Er) as [(k & E & Ek)|(a & ->)]; [|right; exists (false :: a); reflexivity].
        left. exists (S k). rewrite E. split; [reflexivity|lia].
Qed.
End Run.

(** ** C35, C36 assembled *)

Lemma execute_history : forall fuel filter next cap x r y, (0 < cap)%N ->
  execute fuel filter next x (buffer_new cap) 0 = Ret (r, y) -> exists es, history filter next cap x r y es.
Proof.
  intros fuel filter next cap x r y C H. destruct (execute_run _ _ _ _ _ _ _ _ H) as [es R]. exists es.
  assert (LB : (lenN (mb_buffer (buffer_new cap)) < mb_capacity (buffer_new cap))%N) by (cbn; lia).
  assert (LE : (mb_expected_size (buffer_new cap) <= lenN (mb_buffer (buffer_new cap)) + 1)%N) by (cbn; lia).
  pose proof (run_requests _ _ _ _ _ _ _ _ R LB LE) as P1. pose proof (run_result _ _ _ _ _ _ _ _ R LB LE) as P2.
  destruct (run_choking _ _ _ _ _ _ _ _ R) as [P3 P4].
  destruct (run_silence _ _ _ _ _ _ _ _ R ltac:(lia)) as (P5 & P6 & P7).
  cbn [buffer_new mb_buffer mb_capacity mb_expected_size app] in *. change (lenN []) with 0%N in *.
  split; [eapply run_exchange; eauto|]. split; [intros a n c E; destruct (P1 a n c E) as (Q1 & Q2 & Q3); lia|].
  split; [|split; [|split; [|split; [|split; [exact P3|split]]]]].
  - intros SW. 
    assert (SEQ : forall b2 x2 i2 es' t e, es = e :: t ++ es' -> wanted filter [e] = [] -> is_read e ->
      run filter next x2 b2 i2 es' r y -> asked t = [0%N] -> mb_buffer b2 = [] -> mb_capacity b2 = cap -> mb_expected_size b2 = 1%N ->
      asked es = map N.of_nat (seq 0 (List.length (asked es))) /\ (forall d, r = Ok d -> countN (asked es) = cap)).
    { intros b2 x2 i2 es' t e -> W IR R2 At B1 B2 B3.
      assert (Ae : asked [e] = []) by (destruct e; [reflexivity|reflexivity|contradiction]).
      change (e :: t ++ es') with ([e] ++ t ++ es'). rewrite !asked_app, At, Ae. cbn [app List.length seq map].
      destruct (run_sequence _ _ _ _ _ _ _ _ R2) as [S1 S2]; [rewrite B1, B2; cbn; lia|rewrite B1, B3; reflexivity|].
      rewrite B2, B3 in *. split.
      - f_equal. rewrite S1 at 1. rewrite <- seq_shift, map_map. apply map_ext. intros k. lia.
      - intros d E. rewrite countN_cons. apply S2 in E. lia. }
    unfold starts_without in SW.
    assert (FIRST : forall e x1 b1 i1, reading filter x (buffer_new cap) 0 e x1 b1 i1 -> wanted filter [e] = [] ->
       mb_buffer b1 = [] /\ mb_capacity b1 = cap /\ mb_expected_size b1 = 0%N /\ is_read e).
    { intros e x1 b1 i1 Rd W. destruct (reading_buffer filter next _ _ _ _ _ _ _ Rd LB) as (B1 & B2 & B3 & B4 & B5 & B6).
      rewrite W in B1. cbn in B1, B2, B3. auto. }
    inversion R; subst; cbn [firstn] in SW.
    + destruct (FIRST _ _ _ _ H0 SW) as (B1 & B2 & B3 & B4). unfold is_full in H1. rewrite B1, B2 in H1. apply N.eqb_eq in H1. cbn in H1. lia.
    + destruct (FIRST _ _ _ _ H0 SW) as (B1 & B2 & B3 & B4). destruct e; [| |contradiction]; (split; [reflexivity|discriminate]).
    + destruct (FIRST _ _ _ _ H0 SW) as (B1 & B2 & B3 & B4). split; [|discriminate].
      destruct (asking_buffer filter next _ _ _ _ _ H3) as (_ & _ & _ & _ & _ & _ & [(-> & _)|(-> & _)]); destruct e; try contradiction; try reflexivity;
        rewrite B1; reflexivity.
    + destruct (FIRST _ _ _ _ H0 SW) as (B1 & B2 & B3 & B4).
      destruct (asking_buffer filter next _ _ _ _ _ H3) as (C1 & C2 & C3 & _ & _ & _ & [(-> & D)|(-> & D)]).
      * rewrite B1, B3 in D. discriminate.
      * rewrite B1 in *. rewrite B2 in C2. rewrite B3 in C3. eapply SEQ; eauto.
  - intros d ->. exact P2.
  - intros e ->. destruct e; [destruct P2 as (_ & P2 & _)|]; exact P2.
  - split; [intros k c E; specialize (P5 k c E); lia|exact P6].
  - intros ->. destruct P2 as (Q1 & _ & Q2). auto.
  - intros E. split; [|apply P4; exact E]. destruct (P7 E) as [(k & Q & K)|Q]; [left|right; exact Q].
    rewrite Q. f_equal. lia.
Qed.

(** Replacing the function that asks by an equal one. *)
Lemma exchange_ext : forall (I : peer -> Prop) ask ask' (lim : N),
  (forall x n y, I x -> (n < lim)%N -> ask x n = Ret y -> ask' x n = Ret y /\ I y) ->
  (forall x o y, I x -> read_message x = Ret (o, y) -> I (match o with Some m => apply_message y m | None => y end)) ->
  forall x es y, exchange ask x es y -> I x -> (forall n, In (Asked n) es -> (n < lim)%N) -> exchange ask' x es y /\ I y.
Proof.
  intros I ask ask' lim HA HR x es y H. induction H as [x|x m x1 es y R H IH|x x1 es y R H IH|x n x1 es y A H IH]; intros Ix L.
  - split; [constructor|auto].
  - destruct IH as [G1 G2]; [apply (HR x (Some m) x1 Ix R)|intros n In; apply L; cbn; auto|]. split; [econstructor; eauto|auto].
  - destruct IH as [G1 G2]; [apply (HR x None x1 Ix R)|intros n In; apply L; cbn; auto|]. split; [econstructor; eauto|auto].
  - destruct (HA x n x1 Ix ltac:(apply L; cbn; auto) A) as [A' I1].
    destruct IH as [G1 G2]; [auto|intros k In; apply L; cbn; auto|]. split; [econstructor; eauto|auto].
Qed.

Definition writable (x : peer) : Prop := st_wsched (p_stream x) = [].
Lemma writable_read : forall x o y, writable x -> read_message x = Ret (o, y) ->
  writable (match o with Some m => apply_message y m | None => y end).
Proof.
  unfold writable. intros x o y W R. apply read_message_inv in R as (s & -> & _ & [_ S] & _).
  destruct o as [m|]; [destruct (apply_message_fixed (with_stream x s) m) as [-> _]|]; cbn [with_stream p_stream]; congruence.
Qed.

Lemma history_ext : forall filter ask ask' cap x r y es,
  (forall x n y, writable x -> (n < cap)%N -> ask x n = Ret y -> ask' x n = Ret y /\ writable y) ->
  (forall x n y, writable x -> (n < cap)%N -> ask' x n = Ret y -> ask x n = Ret y /\ writable y) ->
  writable x -> history filter ask cap x r y es -> history filter ask' cap x r y es.
Proof.
  intros filter ask ask' cap x r y es HA HA' W (H1 & H2 & H3 & H4 & H5 & H6 & H7 & H8 & H9).
  assert (L : forall a, (exists c, es = a ++ c) -> forall n, In (Asked n) a -> (n < cap)%N).
  { intros a [c ->] n I. apply in_split in I as (a1 & a2 & ->). destruct (H2 a1 n (a2 ++ c)) as (_ & Q & _); [|exact Q].
    rewrite <- app_assoc. reflexivity. }
  assert (X : forall a z, (exists c, es = a ++ c) -> exchange ask x a z -> exchange ask' x a z).
  { intros a z C E. refine (proj1 (exchange_ext writable ask ask' cap HA writable_read x a z E W _)). apply L. exact C. }
  assert (X' : forall a z, (exists c, es = a ++ c) -> exchange ask' x a z -> exchange ask x a z).
  { intros a z C E. refine (proj1 (exchange_ext writable ask' ask cap HA' writable_read x a z E W _)). apply L. exact C. }
  split; [apply X; [exists []; now rewrite app_nil_r|auto]|]. split; [auto|]. split; [auto|]. split; [auto|]. split; [auto|].
  split; [auto|]. split; [|split; [auto|]].
  - intros a e c z E Nc Ir Ez. apply (H7 a e c z E Nc Ir). apply X'; [|exact Ez]. exists c. rewrite E, <- app_assoc. reflexivity.
  - intros E. destruct (H9 E) as (G & a & e & z & Q & Ir & Ez & C). split; [auto|]. exists a, e, z. split; [auto|]. split; [auto|].
    split; [|auto]. apply X; [|exact Ez]. destruct Q as [->|[n ->]]; [exists []; now rewrite app_nil_r|exists [Asked n]; rewrite <- app_assoc; reflexivity].
Qed.

Lemma c35_block : forall p fuel plen i total x r y, st_wsched (p_stream x) = [] ->
  (0 < plen)%N -> (i < piece_count total plen)%N -> (total + plen <= 2 ^ 64)%N -> (i < 2 ^ 32)%N -> (plen < 2 ^ 32)%N ->
  download_block p fuel plen i total x = Ret (r, y) ->
  exists es, history is_request_message (ask_block i total plen) (piece_count (N.min plen (total - i * plen)) 16384) x r y es.
Proof.
  intros p fuel plen i total x r y W P I O I32 P32 H. unfold download_block in H. rewrite real_length in H by auto.
  cbn [obind] in H. unfold BLOCK_SIZE in H. rewrite step_by_count in H by lia. cbn [obind] in H.
  set (cap := piece_count (N.min plen (total - i * plen)) 16384) in *.
  destruct (count_bounds total plen P) as (_ & _ & B3). specialize (B3 i I).
  assert (C : (0 < cap)%N).
  { destruct (count_bounds (N.min plen (total - i * plen)) 16384 ltac:(lia)) as (C1 & _). fold cap in C1. nia. }
  destruct (execute_history _ _ _ _ _ _ _ C H) as [es Hs]. exists es.
  assert (Q : forall x n, writable x -> (n < cap)%N -> next_block p 16384 i total plen x n = ask_block i total plen x n).
  { intros z n Wz Ln. unfold next_block. rewrite block_req by auto. cbn [obind]. rewrite send_ok by exact Wz. unfold ask_block.
    destruct (count_bounds (N.min plen (total - i * plen)) 16384 ltac:(lia)) as (_ & _ & C3). specialize (C3 n Ln).
    rewrite c16_request by lia. reflexivity. }
  assert (Q' : forall x n y, writable x -> (n < cap)%N -> ask_block i total plen x n = Ret y -> writable y).
  { intros z n z' Wz Ln E. unfold ask_block in E. injection E as <-. exact Wz. }
  refine (history_ext _ _ _ _ _ _ _ _ _ _ W Hs).
  - intros z n z' Wz Ln E. rewrite Q in E by auto. eauto.
  - intros z n z' Wz Ln E. rewrite Q by auto. eauto.
Qed.

Lemma c35_info : forall fuel x r y, st_wsched (p_stream x) = [] -> p_metadata_size x <> 0%N -> (p_metadata_size x < 2 ^ 64)%N ->
  download_info fuel x = Ret (r, y) ->
  exists es, history is_extension_data_message ask_metadata (piece_count (p_metadata_size x) 16384) x r y es.
Proof.
  intros fuel x r y W NZ L64 H. unfold download_info, get_metadata_size, INFO_PIECE_SIZE in H. rewrite step_by_count in H by lia.
  cbn [obind] in H. set (cap := piece_count (p_metadata_size x) 16384) in *.
  destruct (count_bounds (p_metadata_size x) 16384 ltac:(lia)) as (C1 & _ & C3). fold cap in C1, C3.
  assert (C : (0 < cap)%N) by nia.
  destruct (execute_history _ _ _ _ _ _ _ C H) as [es Hs]. exists es.
  assert (Q : forall x n, writable x -> (n < cap)%N -> next_piece x n = ask_metadata x n).
  { intros z n Wz Ln. unfold next_piece, get_extension_id_by_name, ask_metadata.
    destruct (hm_get (p_extensions z) (s2b "ut_metadata")) as [id|]; cbn [obind]; [|reflexivity].
    specialize (C3 n Ln). destruct (c15 id n ltac:(lia)) as (m & -> & Em). cbn [obind]. rewrite send_ok by exact Wz. rewrite Em. reflexivity. }
  assert (Q' : forall x n y, writable x -> (n < cap)%N -> ask_metadata x n = Ret y -> writable y).
  { intros z n z' Wz Ln E. unfold ask_metadata in E. destruct (hm_get _ _); [|discriminate]. injection E as <-. exact Wz. }
  refine (history_ext _ _ _ _ _ _ _ _ _ _ W Hs).
  - intros z n z' Wz Ln E. rewrite Q in E by auto. eauto.
  - intros z n z' Wz Ln E. rewrite Q by auto. eauto.
Qed.

(** ** C36: termination *)

Lemma env_incoming : forall s, incoming (snd (env_step s)) = incoming s /\ exists m, st_avail (snd (env_step s)) = st_avail s ++ m.
Proof.
  intros [a c sc ws se]. unfold env_step, incoming. cbn [st_sched st_avail st_closed].
  destruct sc as [|[ch| |] r]; cbn [snd st_avail st_closed st_sched delivered]; (split; [|try (exists []; now rewrite app_nil_r)]); auto.
  - destruct c; cbn [app]; [auto|now rewrite app_assoc].
  - destruct c; [exists []; now rewrite app_nil_r|eauto].
Qed.
Lemma peek_incoming : forall n s, incoming (snd (peek n s)) = incoming s /\ exists m, st_avail (snd (peek n s)) = st_avail s ++ m.
Proof.
  intros n s. unfold peek. destruct (env_incoming s) as [I A]. destruct (env_step s) as [f s1]. cbn [snd] in *.
  destruct f; [auto|]. destruct (st_avail s1) eqn:E; cbn [snd]; rewrite ?E; auto.
Qed.
Lemma peek_nonempty : forall n s g, fst (peek n s) = Some g -> g <> [] -> st_avail (snd (peek n s)) <> [].
Proof.
  intros n s g H N. unfold peek in *. destruct (env_step s) as [f s1]. destruct f; [discriminate|].
  destruct (st_avail s1) eqn:E; cbn [fst snd] in *; [destruct (st_closed s1); congruence|congruence].
Qed.
Lemma read_incoming : forall n s, (0 < n)%N ->
  (List.length (incoming (snd (read n s))) <= List.length (incoming s))%nat /\
  (st_avail s <> [] -> forall g, fst (read n s) = Some g -> (List.length (incoming (snd (read n s))) < List.length (incoming s))%nat).
Proof.
  intros n s N. unfold read. destruct (env_incoming s) as [I [m A]]. destruct (env_step s) as [f s1]. cbn [snd] in *. rewrite <- I.
  destruct f; cbn [fst snd]; [split; [lia|discriminate]|].
  destruct (st_avail s1) as [|b l] eqn:E.
  - cbn [snd fst]. split; [lia|]. intros H. destruct (st_avail s); [congruence|discriminate].
  - cbn [snd fst]. assert (Q : (List.length (incoming (set_avail s1 (dropN n (b :: l)))) < List.length (incoming s1))%nat).
    { unfold incoming, set_avail. cbn [st_avail st_closed st_sched]. rewrite E, !app_length.
      rewrite <- (takeN_drop _ n (b :: l)) at 2. rewrite app_length. pose proof (takeN_length _ n (b :: l)) as T. unfold lenN in T.
      cbn [List.length] in T. lia. }
    split; [lia|]. intros; exact Q.
Qed.
Lemma body_incoming : forall t len s, (0 < len)%N -> (List.length (incoming (snd (read_body t len s))) <= List.length (incoming s))%nat.
Proof.
  induction t as [|t IH]; intros len s L; cbn [read_body]; [auto|]. unfold peek_and_read.
  destruct (peek_incoming len s) as [I _]. destruct (peek len s) as [pk s1]. cbn [snd] in I.
  destruct (_ =? len)%N.
  - destruct (read_incoming len s1 L) as [R _]. destruct (read len s1) as [rd s2]. cbn [snd] in R.
    destruct (_ =? len)%N; cbn [snd]; [congruence|]. specialize (IH len s2 L). rewrite I in R. lia.
  - specialize (IH len s1 L). rewrite I in IH. lia.
Qed.
Lemma body0_incoming : forall t s, (List.length (incoming (snd (read_body t 0 s))) <= List.length (incoming s))%nat.
Proof.
  induction t as [|t IH]; intros s; cbn [read_body]; [auto|]. unfold peek_and_read.
  destruct (peek_incoming 0 s) as [I _]. destruct (peek 0 s) as [pk s1]. cbn [snd] in I.
  assert (R : (List.length (incoming (snd (read 0 s1))) <= List.length (incoming s1))%nat).
  { unfold read. destruct (env_incoming s1) as [I1 _]. destruct (env_step s1) as [f s2]. cbn [snd] in *. rewrite <- I1.
    destruct f; [auto|]. destruct (st_avail s2) as [|b l] eqn:E; cbn [snd]; [auto|].
    unfold incoming, set_avail. cbn [st_avail st_closed st_sched]. rewrite E. unfold dropN.
    destruct (_ <=? 0)%N; [cbn; rewrite app_length; lia|]. reflexivity. }
  destruct (_ =? 0)%N.
  - destruct (read 0 s1) as [rd s2]. cbn [snd] in R. destruct (_ =? 0)%N; cbn [snd]; [congruence|]. specialize (IH s2). rewrite I in R. lia.
  - specialize (IH s1). rewrite I in IH. lia.
Qed.
Lemma body_incoming' : forall t len s, (List.length (incoming (snd (read_body t len s))) <= List.length (incoming s))%nat.
Proof. intros t len s. destruct (N.eq_dec len 0) as [->|]; [apply body0_incoming|apply body_incoming; lia]. Qed.

Lemma frame_incoming : forall s, (List.length (incoming (snd (read_frame s))) <= List.length (incoming s))%nat /\
  (st_avail s <> [] -> forall v, fst (read_frame s) = Some v -> (List.length (incoming (snd (read_frame s))) < List.length (incoming s))%nat).
Proof.
  intros s. unfold read_frame. destruct (read_incoming 4 s ltac:(lia)) as [R1 R2]. destruct (read 4 s) as [r s1]. cbn [fst snd] in *.
  destruct r as [got|]; cbn [fst snd]; [|split; [auto|discriminate]].
  destruct (read_incoming 1 s1 ltac:(lia)) as [R3 _]. destruct (read 1 s1) as [r2 s2]. cbn [fst snd] in *.
  destruct r2 as [got1|]; cbn [fst snd]; [|split; [lia|discriminate]].
  destruct (_ =? 0)%N; cbn [fst snd]; [split; [lia|intros A v _; specialize (R2 A got eq_refl); lia]|].
  match goal with |- context [read_body 39 ?l s2] => pose proof (body_incoming' 39 l s2) as R4; destruct (read_body 39 l s2) as [r3 s3] end.
  cbn [snd] in R4. destruct r3; cbn [fst snd]; (split; [lia|]); [intros A v _; specialize (R2 A got eq_refl); lia|discriminate].
Qed.
Lemma stream_incoming : forall s, (List.length (incoming (snd (read_stream s))) <= List.length (incoming s))%nat /\
  (forall v, fst (read_stream s) = Some v -> (List.length (incoming (snd (read_stream s))) < List.length (incoming s))%nat).
Proof.
  intros s. unfold read_stream, has_messages. destruct (peek_incoming 1 s) as [I1 _]. pose proof (peek_nonempty 1 s) as NE.
  destruct (peek 1 s) as [r s1]. cbn [fst snd] in *. destruct r as [[|b l]|]; cbn [negb fst snd]; [split; [rewrite I1; auto|discriminate]| |split; [rewrite I1; auto|discriminate]].
  specialize (NE _ eq_refl ltac:(discriminate)).
  destruct (peek_incoming 68 s1) as [I2 [m A2]]. destruct (peek 68 s1) as [r2 s2]. cbn [fst snd] in *.
  assert (NE2 : st_avail s2 <> []) by (rewrite A2; destruct (st_avail s1); [congruence|discriminate]).
  destruct (frame_incoming s2) as [F1 F2].
  assert (I : List.length (incoming s2) = List.length (incoming s)) by congruence. rewrite I in *. specialize (F2 NE2).
  destruct r2 as [buf|]; [|split; assumption]. destruct (_ && _); [|split; assumption].
  destruct (read_incoming 68 s2 ltac:(lia)) as [R1 R2]. destruct (read 68 s2) as [r3 s3]. cbn [fst snd] in *. rewrite I in *.
  destruct r3 as [g|]; cbn [fst snd]; (split; [lia|]); [intros v _; exact (R2 NE2 g eq_refl)|discriminate].
Qed.

Definition budget (x : peer) : nat := List.length (incoming (p_stream x)).

Lemma read_budget : forall x o x1, read_message x = Ret (o, x1) ->
  (budget x1 <= budget x)%nat /\ (o <> None -> (budget x1 < budget x)%nat).
Proof.
  intros x o x1 H. apply read_message_inv in H as (s & -> & <- & _ & _ & V). unfold budget. cbn [with_stream p_stream].
  destruct (stream_incoming (p_stream x)) as [A B]. split; [auto|]. intros N. destruct V as [V|[v V]]; [congruence|eauto].
Qed.

(** Why a download with enough rounds does not return: reading or asking did not. *)
Lemma execute_stuck : forall fuel filter next x b idle o, (idle <= 10)%N -> (lenN (mb_buffer b) <= mb_capacity b)%N ->
  (forall z n z1, next z n = Ret z1 -> (budget z1 <= budget z)%nat) ->
  (11 * budget x + 11 < fuel + N.to_nat idle)%nat -> execute fuel filter next x b idle = o ->
  o = Panic \/ o = OutOfFuel ->
  exists es z, exchange next x es z /\ (forall n, In (Asked n) es -> (n < mb_capacity b)%N) /\
    ((read_message z = Panic /\ o = Panic) \/ (read_message z = OutOfFuel /\ o = OutOfFuel) \/
     (exists n, (n < mb_capacity b)%N /\ next z n = Panic /\ o = Panic) \/
     (exists n, (n < mb_capacity b)%N /\ next z n = OutOfFuel /\ o = OutOfFuel)).
Proof.
  induction fuel as [|f IH]; intros filter next x b idle o LI LB NB L H O; [lia|]. cbn [execute] in H.
  destruct (read_message x) as [[m x1]| |] eqn:R; cbn [obind] in H.
  2, 3: exists [], x; (split; [constructor|split; [intros n []|auto]]).
  destruct (read_budget x m x1 R) as [B1 B2].
  assert (RD : exists e x2 b1 i1, reading filter x b idle e x2 b1 i1 /\
    match m with Some m => (apply_message x1 m, push_message filter b m, 0%N) | None => (x1, b, idle) end = (x2, b1, i1) /\
    budget x2 = budget x1 /\ (lenN (mb_buffer b1) <= mb_capacity b1)%N /\ mb_capacity b1 = mb_capacity b /\ is_read e).
  { destruct m as [m|]; eexists _, _, _, _; (split; [econstructor; eauto|split; [reflexivity|]]); [|cbn; auto].
    split; [unfold budget; destruct (apply_message_fixed x1 m) as [-> _]; auto|]. unfold push_message.
    destruct (filter m && negb (is_full b)) eqn:F; [|cbn; auto]. apply andb_true_iff in F as [_ F].
    unfold is_full in F. apply negb_true_iff, N.eqb_neq in F. cbn [mb_buffer mb_capacity]. rewrite lenN_app.
    change (lenN [m]) with 1%N. split; [lia|cbn; auto]. }
  destruct RD as (e & x2 & b1 & i1 & RD & E & Bu & LB1 & CB1 & IR). rewrite E in H.
  destruct (is_full b1) eqn:F; [subst o; destruct O; discriminate|]. unfold is_full in F. apply N.eqb_neq in F.
  destruct (is_choked x2); [subst o; destruct O; discriminate|].
  assert (X1 : exchange next x [e] x2) by (eapply reading_exchange; eauto using ex_nothing).
  assert (NE : forall n, In (Asked n) [e] -> (n < mb_capacity b)%N) by (intros n [->|[]]; contradiction).
  destruct (request_next_message next b1 x2) as [[b2 x3]| |] eqn:Q; cbn [obind] in H.
  - assert (A : exists t, exchange next x2 t x3 /\ (budget x3 <= budget x2)%nat /\ mb_buffer b2 = mb_buffer b1 /\ mb_capacity b2 = mb_capacity b1 /\
      (forall n, In (Asked n) t -> (n < mb_capacity b)%N)).
    { unfold request_next_message in Q. destruct (_ || _); [injection Q as <- <-; exists []; split; [constructor|cbn; intuition]|].
      destruct (next x2 (lenN (mb_buffer b1))) as [x3'| |] eqn:Nx; try discriminate. cbn [obind] in Q. injection Q as <- <-.
      eexists [_]. split; [econstructor; [exact Nx|constructor]|]. split; [eapply NB; eauto|]. split; [auto|]. split; [auto|].
      intros n [In|[]]. injection In as <-. lia. }
    destruct A as (t & At & Bt & Eb & Ec & Lt). destruct (N.ltb_spec 10 (i1 + 1)) as [L10|L10]; [subst o; destruct O; discriminate|].
    destruct (IH filter next x3 b2 (i1 + 1)%N o L10) as (es & z & X & Ln & C); auto.
    + rewrite Eb, Ec. auto.
    + destruct m as [m|]; injection E as <- <- <-; [specialize (B2 ltac:(discriminate))|]; lia.
    + rewrite Ec, CB1 in *. exists (([e] ++ t) ++ es), z. split; [|split; [|exact C]].
      * eapply exchange_app; [|exact X]. eapply exchange_app; eauto.
      * intros n I. apply in_app_or in I as [I|I]; [|auto]. apply in_app_or in I as [I|I]; auto.
  - unfold request_next_message in Q. destruct (_ || _); [discriminate|]. destruct (next x2 (lenN (mb_buffer b1))) eqn:Nx; try discriminate.
    exists [e], x2. split; [auto|]. split; [auto|]. right. right. left. exists (lenN (mb_buffer b1)). subst o. split; [lia|auto].
  - unfold request_next_message in Q. destruct (_ || _); [discriminate|]. destruct (next x2 (lenN (mb_buffer b1))) eqn:Nx; try discriminate.
    exists [e], x2. split; [auto|]. split; [auto|]. right. right. right. exists (lenN (mb_buffer b1)). subst o. split; [lia|auto].
Qed.

Lemma obind_ret : forall A B (m : outcome A) (k : A -> outcome B) y, obind m k = Ret y -> exists a, m = Ret a /\ k a = Ret y.
Proof. intros A B [a| |] k y H; try discriminate. exists a. auto. Qed.

Lemma send_budget : forall x m, budget (send_message x m) = budget x.
Proof.
  intros x m. unfold budget, send_message, write_stream, write_all, incoming. cbn [with_stream p_stream].
  destruct (st_wsched (p_stream x)) as [|[|] r]; reflexivity.
Qed.

(** A message that cannot be read: which one it is. *)
Lemma read_panic : forall z, read_message z = Panic ->
  exists body id len, fst (read_stream (p_stream z)) = Some (body, id, len) /\ new_raw body len id = Panic.
Proof.
  intros z H. unfold read_message in H. destruct (read_stream (p_stream z)) as [[[[body id] len]|] s]; [|discriminate].
  exists body, id, len. split; [auto|]. destruct (new_raw body len id); [discriminate|auto|discriminate].
Qed.
Lemma read_hang : forall z, read_message z = OutOfFuel ->
  exists body id len, fst (read_stream (p_stream z)) = Some (body, id, len) /\ new_raw body len id = OutOfFuel.
Proof.
  intros z H. unfold read_message in H. destruct (read_stream (p_stream z)) as [[[[body id] len]|] s]; [|discriminate].
  exists body, id, len. split; [auto|]. destruct (new_raw body len id); [discriminate|discriminate|auto].
Qed.

Lemma read_stuck : forall z,
  (read_message z = Panic -> exists body id len, fst (read_stream (p_stream z)) = Some (body, id, len) /\ unreadable body id) /\
  (read_message z = OutOfFuel -> exists body id len, fst (read_stream (p_stream z)) = Some (body, id, len) /\ endless body id).
Proof.
  intros z. split; intros H.
  - destruct (read_panic z H) as (body & id & len & E & P). exists body, id, len. split; [auto|]. apply (c17 body len id). exact P.
  - destruct (read_hang z H) as (body & id & len & E & P). exists body, id, len. split; [auto|]. apply (c17 body len id). exact P.
Qed.

Lemma c36_block : forall p fuel plen i total x, st_wsched (p_stream x) = [] ->
  (0 < plen)%N -> (i < piece_count total plen)%N -> (total + plen <= 2 ^ 64)%N -> (i < 2 ^ 32)%N -> (plen < 2 ^ 32)%N ->
  (11 * List.length (incoming (p_stream x)) + 11 < fuel)%nat ->
  (exists r y, download_block p fuel plen i total x = Ret (r, y)) \/
  (exists es z body id len, exchange (ask_block i total plen) x es z /\
     fst (read_stream (p_stream z)) = Some (body, id, len) /\
     ((download_block p fuel plen i total x = Panic /\ unreadable body id) \/
      (download_block p fuel plen i total x = OutOfFuel /\ endless body id))).
Proof.
  intros p fuel plen i total x W P I O I32 P32 L. unfold download_block. rewrite real_length by auto.
  cbn [obind]. unfold BLOCK_SIZE. rewrite step_by_count by lia. cbn [obind].
  set (cap := piece_count (N.min plen (total - i * plen)) 16384) in *.
  assert (Q : forall x n, writable x -> (n < cap)%N -> next_block p 16384 i total plen x n = ask_block i total plen x n).
  { intros z' n Wz Lz; unfold next_block; rewrite block_req by auto; cbn [obind]; rewrite send_ok by exact Wz; unfold ask_block.
    destruct (count_bounds (N.min plen (total - i * plen)) 16384 ltac:(lia)) as (_ & _ & C3); specialize (C3 n Lz).
    rewrite c16_request by lia; reflexivity. }
  assert (Q' : forall x n y, writable x -> (n < cap)%N -> ask_block i total plen x n = Ret y -> writable y).
  { intros z n z' Wz Ln E. unfold ask_block in E. injection E as <-. exact Wz. }
  assert (NB : forall z n z1, next_block p 16384 i total plen z n = Ret z1 -> (budget z1 <= budget z)%nat).
  { intros z n z1 Hn. unfold next_block in Hn.
    destruct (block_request p 16384 i total plen n) as [[[? ?] ?]| |]; try discriminate; cbn [obind] in Hn; injection Hn as <-.
    rewrite send_budget; auto. }
  destruct (execute fuel is_request_message (next_block p 16384 i total plen) x (buffer_new cap) 0) as [[r y]| |] eqn:E; [left; eauto| |];
  (destruct (execute_stuck fuel is_request_message (next_block p 16384 i total plen) x (buffer_new cap) 0 _ (N.le_0_l 10) (N.le_0_l cap) NB
      ltac:(unfold budget; cbn [N.to_nat]; lia) E ltac:(auto)) as (es & z & X & Ln & C);
   cbn [buffer_new mb_capacity] in Ln, C;
   destruct (exchange_ext writable (next_block p 16384 i total plen) (ask_block i total plen) cap) with (x := x) (es := es) (y := z) as [X' Wz];
    [intros z1 n z2 Wz Lz Hz; rewrite Q in Hz by auto; eauto|exact writable_read|exact X|exact W|exact Ln|];
   destruct (read_stuck z) as [RP RH];
   destruct C as [(C & D)|[(C & D)|[(n & Lz & C & D)|(n & Lz & C & D)]]]; try discriminate D; right).
  - destruct (RP C) as (body & id & len & V & U). exists es, z, body, id, len. split; [exact X'|]. split; [exact V|]. left. split; [reflexivity|exact U].
  - rewrite Q in C by assumption. discriminate C.
  - destruct (RH C) as (body & id & len & V & U). exists es, z, body, id, len. split; [exact X'|]. split; [exact V|]. right. split; [reflexivity|exact U].
  - rewrite Q in C by assumption. discriminate C.
Qed.

Lemma c36_info : forall fuel x, st_wsched (p_stream x) = [] -> (p_metadata_size x < 2 ^ 64)%N ->
  (11 * List.length (incoming (p_stream x)) + 11 < fuel)%nat ->
  (exists r y, download_info fuel x = Ret (r, y)) \/
  (exists es z, exchange ask_metadata x es z /\
     ((download_info fuel x = Panic /\ hm_get (p_extensions z) (s2b "ut_metadata") = None) \/
      exists body id len, fst (read_stream (p_stream z)) = Some (body, id, len) /\
        ((download_info fuel x = Panic /\ unreadable body id) \/ (download_info fuel x = OutOfFuel /\ endless body id)))).
Proof.
  intros fuel x W L64 L. unfold download_info, get_metadata_size, INFO_PIECE_SIZE. rewrite step_by_count by lia. cbn [obind].
  set (cap := piece_count (p_metadata_size x) 16384) in *.
  destruct (count_bounds (p_metadata_size x) 16384 ltac:(lia)) as (C1 & _ & C3). fold cap in C1, C3.
  assert (Q : forall x n, writable x -> (n < cap)%N -> next_piece x n = ask_metadata x n).
  { intros z n Wz Ln. unfold next_piece, get_extension_id_by_name, ask_metadata.
    destruct (hm_get (p_extensions z) (s2b "ut_metadata")) as [id|]; cbn [obind]; [|reflexivity].
    specialize (C3 n Ln). destruct (c15 id n ltac:(lia)) as (m & -> & Em). cbn [obind]. rewrite send_ok by exact Wz. rewrite Em. reflexivity. }
  assert (Q' : forall x n y, writable x -> (n < cap)%N -> ask_metadata x n = Ret y -> writable y).
  { intros z n z' Wz Ln E. unfold ask_metadata in E. destruct (hm_get _ _); [|discriminate]. injection E as <-. exact Wz. }
  assert (NB : forall z n z1, next_piece z n = Ret z1 -> (budget z1 <= budget z)%nat).
  { intros z n z1 Hn. unfold next_piece in Hn. apply obind_ret in Hn as (a & _ & Hn). apply obind_ret in Hn as (m & _ & Hn).
    injection Hn as <-. rewrite send_budget. constructor. }
  destruct (execute fuel is_extension_data_message next_piece x (buffer_new cap) 0) as [[r y]| |] eqn:E; [left; eauto| |];
  (destruct (execute_stuck fuel is_extension_data_message next_piece x (buffer_new cap) 0 _ (N.le_0_l 10) (N.le_0_l cap) NB ltac:(unfold budget; cbn [N.to_nat]; lia) E ltac:(auto)) as (es & z & X & Ln & C);
   cbn [buffer_new mb_capacity] in Ln, C;
   destruct (exchange_ext writable next_piece ask_metadata cap) with (x := x) (es := es) (y := z) as [X' Wz];
    [intros z1 n z2 Wz Lz Hz; rewrite Q in Hz by auto; eauto|exact writable_read|exact X|exact W|exact Ln|];
   destruct (read_stuck z) as [RP RH];
   destruct C as [(C & D)|[(C & D)|[(n & Lz & C & D)|(n & Lz & C & D)]]]; try discriminate; right; exists es, z; (split; [exact X'|])).
  - right. destruct (RP C) as (body & id & len & V & U). exists body, id, len. auto.
  - left. split; [auto|]. rewrite Q in C by auto. unfold ask_metadata in C. destruct (hm_get _ _); [discriminate|auto].
  - right. destruct (RH C) as (body & id & len & V & U). exists body, id, len. auto.
  - rewrite Q in C by auto. unfold ask_metadata in C. destruct (hm_get _ _); discriminate.
Qed.

(** ** C36: a peer that keeps sending *)

Lemma busy : forall filter next fuel x b idle k,
  (forall m, msg_content m = CNothing -> filter m = false) ->
  (forall z n, p_extensions z = p_extensions x -> st_wsched (p_stream z) = [] -> (n < mb_capacity b)%N -> exists w, next z n = Ret (after_sending z w)) ->
  (lenN (mb_buffer b) < mb_capacity b)%N -> p_choked x = false -> st_wsched (p_stream x) = [] ->
  Forall (fun t => t <> TErr) (st_sched (p_stream x)) ->
  st_avail (p_stream x) = List.concat (repeat (frame 4 [0; 0; 0; 0]%N) fuel) ++ k ->
  execute fuel filter next x b idle = OutOfFuel.
Proof.
  intros filter next fuel. induction fuel as [|f IH]; intros x b idle k HF HN LB C W NE A; [reflexivity|].
  cbn [repeat List.concat] in A. rewrite <- app_assoc in A.
  cbn [execute]. 
  destruct (c30 (p_stream x) 4 [0; 0; 0; 0]%N _ ltac:(unfold short_body; cbn; lia) (all_no_errors _ _ NE) A) as (s' & k' & R & _ & Av).
  pose proof (stream_later (p_stream x)) as L. rewrite R in L. cbn [snd] in L.
  pose proof (stream_same_out (p_stream x)) as [_ S]. rewrite R in S. cbn [snd] in S.
  assert (RM : read_message x = Ret (Some (message_new CNothing 4 4), with_stream x s')) by (unfold read_message; rewrite R; reflexivity).
  rewrite RM. cbn [obind]. change (apply_message (with_stream x s') (message_new CNothing 4 4)) with (with_stream x s').
  unfold push_message. rewrite HF by reflexivity. cbn [andb].
  assert (F : is_full b = false) by (unfold is_full; apply N.eqb_neq; lia). rewrite F.
  unfold is_choked. cbn [with_stream p_choked]. rewrite C. unfold request_next_message. rewrite F, orb_false_r.
  destruct (is_len_as_expected b).
  - cbn [obind N.add N.ltb N.compare Pos.compare Pos.compare_cont]. 
    eapply IH; eauto; cbn [with_stream p_choked p_stream p_extensions]; auto; [congruence|eapply later_no_errors; eauto|].
    rewrite Av, <- app_assoc. reflexivity.
  - destruct (HN (with_stream x s') (lenN (mb_buffer b))) as [w ->]; [reflexivity|cbn [with_stream p_stream]; congruence|auto|].
    cbn [obind N.add N.ltb N.compare Pos.compare Pos.compare_cont].
    eapply IH; eauto; cbn [with_stream after_sending p_choked p_stream p_extensions mb_capacity mb_buffer st_wsched st_sched st_avail];
      auto; [congruence|eapply later_no_errors; eauto|].
    rewrite Av, <- app_assoc. reflexivity.
Qed.

Lemma c36_busy : forall p fuel plen i total x rest, st_wsched (p_stream x) = [] ->
  (0 < plen)%N -> (i < piece_count total plen)%N -> (total + plen <= 2 ^ 64)%N -> (i < 2 ^ 32)%N -> (plen < 2 ^ 32)%N ->
  p_choked x = false -> Forall (fun t => t <> TErr) (st_sched (p_stream x)) ->
  st_avail (p_stream x) = List.concat (repeat (frame 4 [0; 0; 0; 0]%N) fuel) ++ rest ->
  download_block p fuel plen i total x = OutOfFuel.
Proof.
  intros p fuel plen i total x rest W P I O I32 P32 C NE A. unfold download_block. rewrite real_length by auto.
  cbn [obind]. unfold BLOCK_SIZE. rewrite step_by_count by lia. cbn [obind].
  set (cap := piece_count (N.min plen (total - i * plen)) 16384) in *.
  destruct (count_bounds total plen P) as (_ & _ & B3). specialize (B3 i I).
  assert (CP : (0 < cap)%N).
  { destruct (count_bounds (N.min plen (total - i * plen)) 16384 ltac:(lia)) as (C1 & _). fold cap in C1. nia. }
  eapply busy; eauto.
  - intros m Hm. unfold is_request_message. rewrite Hm. reflexivity.
  - intros z n _ Wz Ln. cbn [buffer_new mb_capacity] in Ln. unfold next_block. rewrite block_req by auto. cbn [obind].
    rewrite send_ok by exact Wz. eauto.
Qed.

(** ** C37 *)

Lemma chunks_nth : forall A k j (l : list A), (0 < k)%nat ->
  nth_error (chunks_exact k l) j = if (k * j + k <=? List.length l)%nat then Some (firstn k (skipn (k * j) l)) else None.
Proof.
  intros A k j. induction j as [|j IH]; intros l K.
  - replace (k * 0)%nat with 0%nat by lia. destruct (Nat.leb_spec (0 + k) (List.length l)) as [L|L].
    + rewrite chunks_exact_step by lia. reflexivity.
    + rewrite chunks_exact_short by lia. reflexivity.
  - destruct (Nat.lt_ge_cases (List.length l) k) as [L|L].
    + rewrite chunks_exact_short by lia. cbn [nth_error]. destruct (Nat.leb_spec (k * S j + k) (List.length l)); [nia|reflexivity].
    + rewrite chunks_exact_step by lia. cbn [nth_error]. rewrite IH by lia. rewrite skipn_length, skipn_add.
      replace (k + k * j)%nat with (k * S j)%nat by lia.
      destruct (Nat.leb_spec (k * j + k) (List.length l - k)), (Nat.leb_spec (k * S j + k) (List.length l)); auto; nia.
Qed.
Lemma get_piece_spec : forall i idx,
  get_piece i idx = if (20 * N.to_nat idx + 20 <=? List.length (i_pieces i))%nat
                    then Ret (firstn 20 (skipn (20 * N.to_nat idx) (i_pieces i))) else Panic.
Proof.
  intros i idx. unfold get_piece, index. pose proof (chunks_nth N 20 (N.to_nat idx) (i_pieces i) ltac:(lia)) as H.
  destruct (Nat.leb_spec (20 * N.to_nat idx + 20) (List.length (i_pieces i))) as [L|L].
  - assert (D : (N.to_nat idx < List.length (chunks_exact 20 (i_pieces i)))%nat) by (apply nth_error_Some; rewrite H; discriminate).
    rewrite H. unfold lenN. rewrite (proj2 (N.ltb_lt _ _)) by lia. reflexivity.
  - apply nth_error_None in H. unfold lenN. rewrite (proj2 (N.ltb_ge _ _)) by lia. reflexivity.
Qed.

Lemma c37 : forall sha1 p fuel net pid ep i idx piece,
  download sha1 p fuel net pid ep i idx = Ret (Ok piece) ->
  sha1 piece = firstn 20 (skipn (20 * N.to_nat idx) (i_pieces i)) /\
  (20 * N.to_nat idx + 20 <= List.length (i_pieces i))%nat.
Proof.
  intros sha1 p fuel net pid ep i idx piece H. unfold download in H.
  destruct (connect net ep) as [[s|e]| |]; try discriminate. cbn [obind] in H.
  apply obind_ret in H as ([r x1] & _ & H). destruct r as [u|e]; [|discriminate].
  apply obind_ret in H as (total & _ & H). apply obind_ret in H as ([d y] & _ & H).
  destruct d as [pc|e]; [|discriminate]. apply obind_ret in H as (ok & V & H).
  destruct ok; cbn [negb] in H; [|discriminate]. injection H as ->.
  unfold verify_piece in V. apply obind_ret in V as (h & G & V). injection V as V. apply bytes_eqb_eq in V. rewrite V.
  rewrite get_piece_spec in G. destruct (Nat.leb_spec (20 * N.to_nat idx + 20) (List.length (i_pieces i))); [|discriminate].
  injection G as <-. auto.
Qed.

(** The whole of [download]: connection, initialisation, blocks, verification. *)
Lemma c37_whole : forall sha1 p fuel s pid ep i idx total r, st_wsched s = [] ->
  parse_socket_addr ep <> None -> get_total_length p i = Ret total ->
  (0 < i_piece_length i)%N -> (idx < piece_count total (i_piece_length i))%N -> (total + i_piece_length i <= 2 ^ 64)%N ->
  (idx < 2 ^ 32)%N -> (i_piece_length i < 2 ^ 32)%N ->
  download sha1 p fuel (Some s) pid ep i idx = Ret r ->
  exists r0 x1, init_peer (peer_new pid s (compute_info_hash sha1 i)) = Ret (r0, x1) /\
    match r0 with
    | Err e => r = Err e
    | Ok _ => exists d y es,
        history is_request_message (ask_block idx total (i_piece_length i))
          (piece_count (N.min (i_piece_length i) (total - idx * i_piece_length i)) 16384) x1 d y es /\
        match d with
        | Err e => r = Err (MEPieceDownloadFailure e)
        | Ok piece => (r = Ok piece /\ sha1 piece = firstn 20 (skipn (20 * N.to_nat idx) (i_pieces i))) \/
                      (r = Err MEPieceVerificationFailure /\ sha1 piece <> firstn 20 (skipn (20 * N.to_nat idx) (i_pieces i)))
        end
    end.
Proof.
  intros sha1 p fuel s pid ep i idx total r W EP GT P I O I32 P32 H. unfold download, connect in H.
  destruct (parse_socket_addr ep); [|congruence]. cbn [obind orbind] in H.
  destruct (init_peer (peer_new pid s (compute_info_hash sha1 i))) as [[r0 x1]| |] eqn:IP; try discriminate. cbn [obind] in H.
  exists r0, x1. split; [reflexivity|].
  destruct r0 as [u|e]; [|injection H as <-; reflexivity]. rewrite GT in H. cbn [obind] in H.
  unfold get_piece_length in H.
  destruct (download_block p fuel (i_piece_length i) idx total x1) as [[d y]| |] eqn:D; try discriminate. cbn [obind] in H.
  assert (W1 : st_wsched (p_stream x1) = []).
  { destruct (c34 _ _ _ _ _ W IP) as [(o & E & _)|(m0 & h & x0 & ms & R0 & _ & _ & R1 & _)]; [discriminate|].
    destruct (receives_fold _ _ _ R0) as ([_ S0] & _). destruct (receives_fold _ _ _ R1) as ([_ S1] & _).
    rewrite S1. cbn [after_sending with_stream p_stream st_wsched]. rewrite S0. exact W. }
  destruct (c35_block _ _ _ _ _ _ _ _ W1 P I O I32 P32 D) as [es Hs]. exists d, y, es. split; [exact Hs|].
  destruct d as [piece|e]; [|injection H as <-; reflexivity].
  unfold verify_piece in H. rewrite get_piece_spec in H.
  destruct (Nat.leb_spec (20 * N.to_nat idx + 20) (List.length (i_pieces i))); [|discriminate]. cbn [obind] in H.
  destruct (bytes_eqb (sha1 piece) _) eqn:B; cbn [negb] in H; injection H as <-.
  - left. apply bytes_eqb_eq in B. auto.
  - right. split; [auto|]. intros E. apply bytes_eqb_eq in E. congruence.
Qed.

(** What counts as a block and what it carries. *)
Lemma block_message : forall id body m, parsed (id, body) m ->
  (is_request_message m = true <-> id = 6 \/ id = 7)%N /\
  (is_request_message m = true -> get_content_data m = skipn 8 body) /\
  (is_extension_data_message m = true -> id = 20%N).
Proof.
  intros id body m [len H]. cbn [fst snd] in H. destruct (c17_content body len id m H) as (C5 & C6 & C19 & C20 & CO).
  destruct (N.eq_dec id 5) as [->|N5].
  { destruct (C5 eq_refl) as (b & E & _). unfold is_request_message, is_extension_data_message. rewrite E.
    split; [split; [discriminate|lia]|]. split; discriminate. }
  destruct (N.eq_dec id 19) as [->|N19].
  { destruct (C19 eq_refl) as (b & E & _). unfold is_request_message, is_extension_data_message. rewrite E.
    split; [split; [discriminate|lia]|]. split; discriminate. }
  destruct (N.eq_dec id 20) as [->|N20].
  { destruct (C20 eq_refl) as (b & E & _). unfold is_request_message. rewrite E.
    split; [split; [discriminate|lia]|]. split; [discriminate|auto]. }
  assert (D : (id = 6 \/ id = 7)%N \/ ~ In id [5; 6; 7; 19; 20]%N).
  { destruct (N.eq_dec id 6); [auto|]. destruct (N.eq_dec id 7); [auto|]. right. cbn. intuition congruence. }
  destruct D as [D|D].
  - destruct (C6 D) as (r & E & R). unfold is_request_message, is_extension_data_message, get_content_data. rewrite E.
    split; [tauto|]. split; [|discriminate]. intros _.
    destruct (Nat.lt_ge_cases (List.length body) 8) as [L|L].
    { assert (new_raw body len id = Panic) by (apply (c17 body len id); auto). congruence. }
    unfold request_from_bytes, slice_from in R. rewrite !slice_in in R by lia. cbn [obind] in R.
    rewrite (proj2 (Nat.leb_le 8 _)) in R by lia. cbn [obind] in R. injection R as <-. reflexivity.
  - destruct (CO D) as (_ & -> & -> & _). split; [split; [discriminate|]|split; discriminate].
    intros [->| ->]; cbn in D; exfalso; apply D; auto.
Qed.
