(** ProofOutput: lemmas for C61 *)
From Verif Require Import Base Utf8 ModelBencode ModelMessages ModelTorrent ModelStream ModelPeer
  SpecBencode SpecMessages SpecWriter SpecPieces SpecStream SpecPeer SpecCache SpecOutput
  ProofBase ProofBencode ProofMessages ProofPieces ProofStream ProofPeer ProofSession ProofCache2.

Lemma sent_as_app : forall a x, sent_as a x -> forall b y, sent_as b y -> sent_as (a ++ b) (x ++ y).
Proof.
  intros a x H. induction H as [|m ms c b P H IH]; intros b' y H2; cbn [app]; [auto|].
  rewrite <- app_assoc. constructor; auto.
Qed.

(** ** Writing *)

Lemma write_sent : forall s b, exists c rest, b = c ++ rest /\ st_sent (snd (write_all s b)) = st_sent s ++ c /\
  (fst (write_all s b) = true -> c = b) /\
  (st_wsched s = [] -> c = b /\ st_wsched (snd (write_all s b)) = []).
Proof.
  intros s b. unfold write_all. destruct (st_wsched s) as [|[n|] r].
  - exists b, []. rewrite app_nil_r. cbn. auto.
  - exists (firstn n b), (skipn n b). rewrite firstn_skipn. cbn. repeat split; discriminate.
  - exists b, []. rewrite app_nil_r. cbn. repeat split; auto; discriminate.
Qed.

(** From stream [s] to stream [s'] the messages [msgs] were written. *)
Definition wrote (s s' : stream) (msgs : list bytes) : Prop :=
  exists new, st_sent s' = st_sent s ++ new /\ sent_as msgs new /\
    (st_wsched s = [] -> new = List.concat msgs /\ st_wsched s' = []).

Lemma wrote_same : forall s s', same_out s s' -> wrote s s' [].
Proof. intros s s' [E W]. exists []. rewrite app_nil_r. split; [auto|]. split; [constructor|]. intros H. rewrite W. auto. Qed.

Lemma wrote_app : forall s s1 s2 a b, wrote s s1 a -> wrote s1 s2 b -> wrote s s2 (a ++ b).
Proof.
  intros s s1 s2 a b (n1 & E1 & A1 & W1) (n2 & E2 & A2 & W2). exists (n1 ++ n2). split; [rewrite E2, E1, app_assoc; auto|].
  split; [apply sent_as_app; auto|]. intros W. destruct (W1 W) as [-> Q]. destruct (W2 Q) as [-> Q2]. rewrite concat_app. auto.
Qed.

Lemma wrote_write : forall s b, wrote s (snd (write_all s b)) [b].
Proof.
  intros s b. destruct (write_sent s b) as (c & rest & E & S & _ & W). exists c. split; [auto|]. split.
  - replace c with (c ++ []) by apply app_nil_r. constructor; [exists rest; auto|constructor].
  - intros Q. destruct (W Q) as [-> Q2]. cbn. rewrite app_nil_r. auto.
Qed.

Lemma wrote_send : forall x m, wrote (p_stream x) (p_stream (send_message x m)) [message_as_bytes m].
Proof. intros x m. apply wrote_write. Qed.

Lemma wrote_read : forall x o x1, read_message x = Ret (o, x1) ->
  wrote (p_stream x) (p_stream (match o with Some m => apply_message x1 m | None => x1 end)) [].
Proof.
  intros x o x1 R. apply read_message_inv in R as (s & -> & _ & S & _). apply wrote_same.
  destruct o as [m|]; [destruct (apply_message_fixed (with_stream x s) m) as [-> _]|]; exact S.
Qed.

Lemma wrote_receives : forall x ms y, receives x ms y -> wrote (p_stream x) (p_stream y) [].
Proof. intros x ms y H. destruct (receives_fold _ _ _ H) as (S & _). apply wrote_same. exact S. Qed.

Lemma wrote_rounds : forall n x r y, init_rounds n x = Ret (r, y) -> wrote (p_stream x) (p_stream y) [].
Proof. intros n x r y H. destruct (init_rounds_spec _ _ _ _ H) as (ms & R & _). eapply wrote_receives; eauto. Qed.

Lemma init_wrote : forall pid s ih r y, init_peer (peer_new pid s ih) = Ret (r, y) ->
  (r = Err MEHandshake /\ wrote s (p_stream y) [handshake_layout ih pid]) \/
  (r <> Err MEHandshake /\ wrote s (p_stream y) (opening_messages ih pid)).
Proof.
  intros pid s ih r y H. unfold init_peer in H. cbn [peer_new p_info_hash p_id] in H. fold (peer_new pid s ih) in H.
  set (x := peer_new pid s ih) in *. pose proof (wrote_send x (new_handshake ih pid)) as W0.
  destruct (c14_new ih pid) as [HL _]. rewrite HL in W0. set (x0 := send_message x (new_handshake ih pid)) in *.
  unfold read_and_apply in H. destruct (read_message x0) as [[o x1]| |] eqn:R; try discriminate. cbn [obind] in H.
  pose proof (wrote_read _ _ _ R) as W1. set (x2 := match o with Some m => apply_message x1 m | None => x1 end) in *.
  assert (W2 := wrote_app _ _ _ _ _ W0 W1). cbn [app] in W2. change (p_stream x) with s in W2.
  destruct (negb (is_active x2)).
  { injection H as <- <-. left. auto. }
  right. pose proof (wrote_send x2 new_interested) as W3. rewrite c16_interested in W3.
  set (x3 := send_message x2 new_interested) in *. clearbody x3.
  unfold peer_send_metadata_handshake, send_metadata_handshake_request in H. rewrite c16_extension_handshake in H.
  pose proof (wrote_write (p_stream x3) extension_handshake) as W4.
  destruct (write_all (p_stream x3) extension_handshake) as [ok s4]. cbn [snd] in W4.
  assert (W5 := wrote_app _ _ _ _ _ W2 (wrote_app _ _ _ _ _ W3 W4)). cbn [app] in W5. fold (opening_messages ih pid) in W5.
  destruct (negb ok).
  { injection H as <- <-. split; [discriminate|exact W5]. }
  split.
  - destruct (init_rounds_spec _ _ _ _ H) as (ms & _ & _ & _ & [(-> & _)|(-> & _)]); discriminate.
  - assert (W6 := wrote_app _ _ _ _ _ W5 (wrote_rounds _ _ _ _ H)). rewrite app_nil_r in W6. exact W6.
Qed.

(** ** Asking *)

Lemma exchange_wrote : forall (I : peer -> Prop) ask (lim : N) (rep : N -> bytes -> Prop),
  (forall x n y, I x -> (n < lim)%N -> ask x n = Ret y -> I y /\ exists b, rep n b /\ wrote (p_stream x) (p_stream y) [b]) ->
  (forall x o y, I x -> read_message x = Ret (o, y) -> I (match o with Some m => apply_message y m | None => y end)) ->
  forall x es y, exchange ask x es y -> I x -> (forall n, In (Asked n) es -> (n < lim)%N) ->
  exists msgs, Forall2 rep (asked es) msgs /\ wrote (p_stream x) (p_stream y) msgs.
Proof.
  intros I ask lim rep HA HR x es y H. induction H as [x|x m x1 es y R H IH|x x1 es y R H IH|x n x1 es y A H IH]; intros Ix L.
  - exists []. split; [constructor|]. apply wrote_same. apply same_out_refl.
  - destruct IH as (ms & F & W); [apply (HR x (Some m) x1 Ix R)|intros n In; apply L; cbn; auto|].
    exists ms. split; [auto|]. exact (wrote_app _ _ _ _ _ (wrote_read _ _ _ R) W).
  - destruct IH as (ms & F & W); [apply (HR x None x1 Ix R)|intros n In; apply L; cbn; auto|].
    exists ms. split; [auto|]. exact (wrote_app _ _ _ _ _ (wrote_read _ _ _ R) W).
  - destruct (HA x n x1 Ix ltac:(apply L; cbn; auto) A) as (I1 & b & Rb & Wb).
    destruct IH as (ms & F & W); [auto|intros k In; apply L; cbn; auto|].
    exists (b :: ms). split; [constructor; auto|]. exact (wrote_app _ _ _ _ _ Wb W).
Qed.

Lemma asked_split : forall es a n c, asked es = a ++ n :: c -> exists e1 e2, es = e1 ++ Asked n :: e2 /\ asked e1 = a /\ asked e2 = c.
Proof.
  induction es as [|e es IH]; intros a n c H; cbn in H; [destruct a; discriminate|].
  destruct e as [m| |k].
  - destruct (IH a n c H) as (e1 & e2 & -> & A & B). exists (Got m :: e1), e2. auto.
  - destruct (IH a n c H) as (e1 & e2 & -> & A & B). exists (Silence :: e1), e2. auto.
  - destruct a as [|k' a]; cbn [app] in H; injection H as -> H.
    + exists [], es. auto.
    + destruct (IH a n c H) as (e1 & e2 & -> & A & B). exists (Asked k' :: e1), e2. split; [reflexivity|]. split; [rewrite <- A; reflexivity|auto].
Qed.

Lemma list_snoc_cases : forall A (l : list A), l = [] \/ exists a x, l = a ++ [x].
Proof. intros A l. destruct l as [|x l] using rev_ind; [auto|right; eauto]. Qed.

Lemma in_step_facts : forall f cap es, in_step f cap es ->
  non_decreasing (asked es) /\ (forall n, In n (asked es) -> (n < cap)%N) /\ (countN (asked es) <= cap)%N.
Proof.
  intros f cap es H. split; [|split].
  - intros a x b y c E. destruct (asked_split es (a ++ x :: b) y c) as (e1 & e2 & -> & A & B).
    { rewrite E, <- app_assoc. reflexivity. }
    destruct (asked_split e1 a x b A) as (e3 & e4 & -> & A3 & A4).
    destruct (H e3 x (e4 ++ Asked y :: e2)) as (X & _). { rewrite <- app_assoc. reflexivity. }
    destruct (H (e3 ++ Asked x :: e4) y e2) as (Y & _); [reflexivity|].
    rewrite X, Y. rewrite wanted_app. unfold countN. rewrite app_length. lia.
  - intros n I. apply in_split in I as (a & c & E). destruct (asked_split es a n c E) as (e1 & e2 & -> & _ & _).
    destruct (H e1 n e2) as (_ & L & _); [reflexivity|auto].
  - destruct (list_snoc_cases _ (asked es)) as [E|(l & n & E)]; rewrite E; [unfold countN; cbn; lia|].
    destruct (asked_split es l n []) as (e1 & e2 & -> & A & _); [auto|].
    destruct (H e1 n e2) as (_ & L & C); [reflexivity|]. rewrite A in C. unfold countN in *. rewrite app_length. cbn. lia.
Qed.

(** ** C61: a piece session *)

Lemma wrote_has : forall s y msgs, wrote s (p_stream y) msgs -> has_sent s y msgs.
Proof. intros s y msgs (n & E & A & W). exists n. split; [auto|]. split; [auto|]. intros Q. apply W. auto. Qed.

Lemma Forall2_map_eq : forall A B (f : A -> B) l m, Forall2 (fun a b => b = f a) l m -> m = map f l.
Proof. intros A B f l m H. induction H; cbn; congruence. Qed.

Lemma c61_refused : forall pid s ih e y, init_peer (peer_new pid s ih) = Ret (Err e, y) ->
  (e = MEHandshake /\ has_sent s y [handshake_layout ih pid]) \/ (e <> MEHandshake /\ has_sent s y (opening_messages ih pid)).
Proof.
  intros pid s ih e y H. destruct (init_wrote _ _ _ _ _ H) as [(E & W)|(E & W)]; [left|right]; (split; [congruence|apply wrote_has; auto]).
Qed.

Lemma c61_piece : forall p fuel plen i total pid s ih x r y,
  (0 < plen)%N -> (i < piece_count total plen)%N -> (total + plen <= 2 ^ 64)%N -> (i < 2 ^ 32)%N -> (plen < 2 ^ 32)%N ->
  init_peer (peer_new pid s ih) = Ret (Ok tt, x) -> download_block p fuel plen i total x = Ret (r, y) ->
  let count := piece_count (N.min plen (total - i * plen)) 16384 in
  exists asks, has_sent s y (opening_messages ih pid ++ map (block_request_bytes i total plen) asks) /\
    non_decreasing asks /\ (forall n, In n asks -> (n < count)%N) /\ (countN asks <= count)%N.
Proof.
  intros p fuel plen i total pid s ih x r y P I O I32 P32 HI H count.
  destruct (init_wrote _ _ _ _ _ HI) as [(E & _)|(_ & W0)]; [discriminate|].
  unfold download_block in H. rewrite real_length in H by auto.
  cbn [obind] in H. unfold BLOCK_SIZE in H. rewrite step_by_count in H by lia. cbn [obind] in H. fold count in H.
  destruct (count_bounds total plen P) as (_ & _ & B3). specialize (B3 i I).
  assert (C : (0 < count)%N).
  { destruct (count_bounds (N.min plen (total - i * plen)) 16384 ltac:(lia)) as (C1 & _). fold count in C1. nia. }
  destruct (execute_history _ _ _ _ _ _ _ C H) as [es (EX & ST & _)].
  destruct (in_step_facts _ _ _ ST) as (F1 & F2 & F3).
  destruct (exchange_wrote (fun _ => True) (next_block p 16384 i total plen) count (fun n b => b = block_request_bytes i total plen n))
    with (x := x) (es := es) (y := y) as (msgs & FM & W); auto.
  { intros z n z' _ Ln E. split; [auto|]. unfold next_block in E. rewrite block_req in E by auto. cbn [obind] in E. injection E as <-.
    eexists. split; [reflexivity|].
    destruct (count_bounds (N.min plen (total - i * plen)) 16384 ltac:(lia)) as (_ & _ & C3). specialize (C3 n Ln).
    pose proof (wrote_send z (new_request i (n * 16384) (N.min (total - i * plen - n * 16384) 16384))) as Wz.
    rewrite c16_request in Wz by lia. exact Wz. }
  { intros n IN. apply F2. unfold asked. apply in_flat_map. exists (Asked n). cbn. auto. }
  exists (asked es). split; [|auto]. apply Forall2_map_eq in FM. subst msgs. apply wrote_has. exact (wrote_app _ _ _ _ _ W0 W).
Qed.

(** ** C61: a metadata session *)

(** Every integer in a decoded value fits 64 bits. *)
Inductive bounded : metainfo -> Prop :=
| bounded_int : forall n, (n < 2 ^ 64)%N -> bounded (MInteger n)
| bounded_list : forall l, Forall bounded l -> bounded (MList l)
| bounded_str : forall s, bounded (MString s)
| bounded_dict : forall d, Forall (fun kv => bounded (snd kv)) d -> bounded (MDictionary d)
| bounded_nothing : bounded MNothing.

Lemma insert_bounded : forall d k v, Forall (fun kv : bytes * metainfo => bounded (snd kv)) d -> bounded v ->
  Forall (fun kv : bytes * metainfo => bounded (snd kv)) (hm_insert d k v).
Proof.
  induction d as [|[k' v'] d IH]; intros k v F Hv; cbn [hm_insert]; [repeat constructor; auto|].
  inversion F; subst. destruct (bytes_eqb _ _); constructor; auto.
Qed.

Lemma decode_bounded : forall c f,
  (forall cur m e, decode_f f c cur = Ret (Ok (m, e)) -> bounded m) /\
  (forall cur acc m e, Forall bounded acc -> list_f f c cur acc = Ret (Ok (m, e)) -> bounded m) /\
  (forall cur acc m e, Forall (fun kv => bounded (snd kv)) acc -> dict_f f c cur acc = Ret (Ok (m, e)) -> bounded m).
Proof.
  intros c. induction f as [|f (ID & IL & IM)]; [repeat split; intros; discriminate|].
  repeat split.
  - intros cur m e H. cbn [decode_f] in H. destruct (nth_error c cur) as [b|]; [|injection H as <- <-; constructor].
    destruct (b =? 105)%N.
    { unfold parse_integer, orbind in H.
      destruct (get_consecutive_digits c (S cur)) as [[[n e0]|]| |] eqn:G; try discriminate.
      injection H as <- <-. constructor. exact (digits_usize _ _ _ _ G). }
    destruct (b =? 108)%N. { eapply IL; [|exact H]. constructor. }
    destruct (b =? 100)%N. { eapply IM; [|exact H]. constructor. }
    destruct (_ && _); [|injection H as <- <-; constructor].
    unfold orbind in H. destruct (parse_string c cur) as [[[s e0]|]| |] eqn:G; try discriminate.
    injection H as <- <-. constructor.
  - intros cur acc m e F H. cbn [list_f] in H. apply obind_ret in H as (b & _ & H).
    destruct (b =? 101)%N; [injection H as <- <-; now constructor|].
    unfold orbind in H. destruct (decode_f f c cur) as [[[v e0]|]| |] eqn:G; try discriminate.
    eapply IL; [|exact H]. apply Forall_app. split; auto. constructor; auto. eapply ID; eauto.
  - intros cur acc m e F H. cbn [dict_f] in H. apply obind_ret in H as (b & _ & H).
    destruct (b =? 101)%N; [injection H as <- <-; now constructor|].
    unfold orbind in H. destruct (parse_string c cur) as [[[k e0]|]| |] eqn:G; try discriminate.
    destruct (utf8_valid k); [|discriminate].
    destruct (decode_f f c e0) as [[[v e1]|]| |] eqn:G1; try discriminate.
    eapply IM; [|exact H]. apply insert_bounded; auto. eapply ID; eauto.
Qed.

Lemma size_bounded : forall b e n, extension_from_bytes b = Ret (Ok e) -> ex_get_metadata_size e = Some n -> (n < 2 ^ 64)%N.
Proof.
  intros b e n H M. unfold extension_from_bytes in H. apply obind_ret in H as (rest & _ & H). apply obind_ret in H as (r & D & H).
  destruct r as [[content parsed]|]; [|discriminate]. apply obind_ret in H as (id & _ & H). apply obind_ret in H as (data & _ & H).
  injection H as <-. unfold ex_get_metadata_size in M. cbn [ex_metadata_size] in M.
  unfold get_integer_from_dict, rbind, res_ok in M. destruct (get_dict_content content) as [d|] eqn:G; [|discriminate].
  destruct (hm_get d (s2b "metadata_size")) as [v|] eqn:E; [|discriminate].
  assert (B : bounded content) by (eapply (proj1 (decode_bounded rest _)); exact D).
  destruct content; try discriminate. cbn in G. injection G as ->. inversion B as [| | |? F|]; subst.
  apply hm_get_in in E as [k' I]. pose proof (proj1 (Forall_forall _ _) F _ I) as Bv. cbn [snd] in Bv.
  destruct v; try discriminate. cbn in M. injection M as ->. now inversion Bv.
Qed.

Definition small (x : peer) : Prop := (p_metadata_size x < 2 ^ 64)%N.

Lemma parsed_size : forall r m n e, parsed r m -> states_size m = Some (n, e) -> (n < 2 ^ 64)%N.
Proof.
  intros [id body] m n e [len P] S. cbn [fst snd] in P. unfold states_size in S. destruct (msg_content m) as [|ex| | | |] eqn:C; try discriminate.
  destruct (ex_get_metadata_size ex) as [k|] eqn:M; [|discriminate]. injection S as -> <-.
  unfold new_raw in P. repeat match type of P with context [if ?b then _ else _] => destruct b end; try (injection P as <-; discriminate).
  - apply obind_ret in P as (q & _ & P). injection P as <-. discriminate.
  - unfold orbind in P. destruct (extension_from_bytes body) as [[q|]| |] eqn:E; try discriminate. injection P as <-. cbn in C. injection C as ->.
    eapply size_bounded; eauto.
  - apply obind_ret in P as (q & _ & P). injection P as <-. discriminate.
Qed.

Lemma apply_small : forall x m r, small x -> parsed r m -> small (apply_message x m).
Proof.
  intros x m r H P. pose proof (parsed_size r m) as B. unfold apply_message, apply_content, states_size, small in *.
  repeat match goal with |- context [if ?b then _ else _] => destruct b end; try exact H;
    destruct (msg_content m) as [|ex| | | |]; try exact H; destruct (ex_is_handshake ex); try exact H; cbn [with_metadata p_metadata_size];
    (destruct (ex_get_metadata_size ex) as [k|]; [eapply B; [exact P|reflexivity]|reflexivity]).
Qed.

Lemma read_small : forall x o y, small x -> read_message x = Ret (o, y) -> small (match o with Some m => apply_message y m | None => y end).
Proof.
  intros x o y H R. apply read_message_inv in R as (s & -> & _ & _ & P & _). destruct o as [m|]; [|exact H].
  destruct (P m eq_refl) as [r Pr]. eapply apply_small; eauto.
Qed.

Lemma receives_small : forall x ms y, receives x ms y -> small x -> small y.
Proof.
  intros x ms y H. induction H as [x|x m x1 ms y R H IH|x x1 ms y R H IH]; intros S; [auto| |]; apply IH.
  - exact (read_small _ _ _ S R).
  - exact (read_small _ _ _ S R).
Qed.

Lemma init_small : forall pid s ih r y, init_peer (peer_new pid s ih) = Ret (r, y) -> small y.
Proof.
  intros pid s ih r y H. unfold init_peer in H. cbn [peer_new p_info_hash p_id] in H. fold (peer_new pid s ih) in H.
  assert (S0 : small (send_message (peer_new pid s ih) (new_handshake ih pid))) by reflexivity.
  set (x0 := send_message (peer_new pid s ih) (new_handshake ih pid)) in *. clearbody x0.
  unfold read_and_apply in H. destruct (read_message x0) as [[o x1]| |] eqn:R; try discriminate. cbn [obind] in H.
  pose proof (read_small _ _ _ S0 R) as S1. set (x2 := match o with Some m => apply_message x1 m | None => x1 end) in *. clearbody x2.
  destruct (negb (is_active x2)); [injection H as <- <-; auto|].
  unfold peer_send_metadata_handshake in H. destruct (send_metadata_handshake_request _) as [ok s4].
  destruct (negb ok); [injection H as <- <-; exact S1|].
  destruct (init_rounds_spec _ _ _ _ H) as (ms & RM & _). eapply receives_small; [exact RM|]. exact S1.
Qed.

Lemma init_sized : forall pid s ih x, init_peer (peer_new pid s ih) = Ret (Ok tt, x) -> p_metadata_size x <> 0%N.
Proof.
  intros pid s ih x HI.
  unfold init_peer in HI. destruct (read_and_apply _) as [x1| |]; try discriminate. cbn [obind] in HI.
    destruct (negb (is_active x1)); [discriminate|]. destruct (peer_send_metadata_handshake _) as [ok x3]. destruct (negb ok); [discriminate|].
    destruct (init_rounds_spec _ _ _ _ HI) as (ms & _ & _ & _ & [(_ & [_ Rd] & _)|(E & _)]); [auto|discriminate].
Qed.

Lemma next_piece_wrote : forall z n z', (n < 2 ^ 64)%N -> next_piece z n = Ret z' ->
  exists b, (exists id, b = info_request_bytes id n) /\ wrote (p_stream z) (p_stream z') [b].
Proof.
  intros z n z' L64 E. unfold next_piece in E. apply obind_ret in E as (id & _ & E). apply obind_ret in E as (m & Em & E).
  injection E as <-. destruct (c15 id n L64) as (m' & Em' & Eb). rewrite Em in Em'. injection Em' as <-.
  exists (message_as_bytes m). split; [exists id; exact Eb|apply wrote_send].
Qed.

Lemma c61_metadata : forall fuel pid s ih x r y,
  init_peer (peer_new pid s ih) = Ret (Ok tt, x) -> download_info fuel x = Ret (r, y) ->
  let count := piece_count (p_metadata_size x) 16384 in
  exists asks msgs, has_sent s y (opening_messages ih pid ++ msgs) /\
    Forall2 (fun n m => exists id, m = info_request_bytes id n) asks msgs /\
    non_decreasing asks /\ (forall n, In n asks -> (n < count)%N) /\ (countN asks <= count)%N.
Proof.
  intros fuel pid s ih x r y HI H count. pose proof (init_small _ _ _ _ _ HI) as SM.
  destruct (init_wrote _ _ _ _ _ HI) as [(E & _)|(_ & W0)]; [discriminate|].
  pose proof (init_sized _ _ _ _ HI) as NZ.
  unfold download_info, get_metadata_size, INFO_PIECE_SIZE in H. rewrite step_by_count in H by lia.
  cbn [obind] in H. fold count in H.
  destruct (count_bounds (p_metadata_size x) 16384 ltac:(lia)) as (C1 & _ & C3). fold count in C1, C3.
  assert (C : (0 < count)%N) by nia.
  destruct (execute_history _ _ _ _ _ _ _ C H) as [es (EX & ST & _)].
  destruct (in_step_facts _ _ _ ST) as (F1 & F2 & F3).
  destruct (exchange_wrote (fun _ => True) next_piece count (fun n b => exists id, b = info_request_bytes id n))
    with (x := x) (es := es) (y := y) as (msgs & FM & W); auto.
  { intros z n z' _ Ln E. split; [auto|]. apply next_piece_wrote; [|exact E]. specialize (C3 n Ln). unfold small in SM. lia. }
  { intros n IN. apply F2. unfold asked. apply in_flat_map. exists (Asked n). cbn. auto. }
  exists (asked es), msgs. split; [|auto]. apply wrote_has. exact (wrote_app _ _ _ _ _ W0 W).
Qed.

(** ** C61: the requests *)

Lemma c61_inside : forall i total plen n, (0 < plen)%N -> (i < piece_count total plen)%N ->
  (n < piece_count (N.min plen (total - i * plen)) 16384)%N ->
  (1 <= block_length i total plen n <= 16384)%N /\ (i * plen + n * 16384 + block_length i total plen n <= total)%N /\
  (plen mod 16384 = 0 -> n * 16384 + block_length i total plen n <= plen)%N.
Proof.
  intros i total plen n P I L. destruct (count_bounds total plen P) as (_ & _ & B). specialize (B i I).
  destruct (count_bounds (N.min plen (total - i * plen)) 16384 ltac:(lia)) as (_ & _ & C). specialize (C n L).
  unfold block_length. split; [lia|]. split; [lia|]. intros M.
  assert (plen = 16384 * (plen / 16384))%N by (rewrite (N.div_mod plen 16384) at 1; lia). nia.
Qed.

Lemma big_endian_length : forall k n, List.length (big_endian k n) = k.
Proof. induction k as [|k IH]; intros n; cbn [big_endian]; [auto|]. rewrite app_length, IH. cbn. lia. Qed.

Lemma sent_as_length : forall ms b, sent_as ms b -> (lenN b <= lenN (List.concat ms))%N.
Proof.
  intros ms b H. induction H as [|m ms c b [rest ->] H IH]; [cbn; lia|]. cbn [List.concat]. unfold lenN in *. rewrite !app_length. lia.
Qed.

Lemma c61_volume : forall i total plen asks pid ih s y, List.length pid = 20%nat -> List.length ih = 20%nat ->
  has_sent s y (opening_messages ih pid ++ map (block_request_bytes i total plen) asks) ->
  (lenN (st_sent (p_stream y)) <= lenN (st_sent s) + 137 + 17 * countN asks)%N.
Proof.
  intros i total plen asks pid ih s y LP LI (new & E & A & _). apply sent_as_length in A. rewrite E.
  assert (LA : lenN (st_sent s ++ new) = (lenN (st_sent s) + lenN new)%N) by (unfold lenN; rewrite app_length; lia).
  assert (LO : List.length (List.concat (opening_messages ih pid)) = 137%nat).
  { unfold opening_messages. cbn [List.concat]. rewrite !app_length.
    change (List.length extension_handshake) with 64%nat. change (List.length (frame 2 [])) with 5%nat.
    unfold handshake_layout. rewrite !app_length, LP, LI. reflexivity. }
  assert (LR : List.length (List.concat (map (block_request_bytes i total plen) asks)) = (17 * List.length asks)%nat).
  { clear. induction asks as [|a l IH]; [reflexivity|]. cbn [map List.concat List.length]. rewrite app_length, IH.
    unfold block_request_bytes, frame. rewrite !app_length, !big_endian_length. cbn [List.length]. lia. }
  rewrite LA. unfold lenN, countN in *. rewrite concat_app, app_length, LO, LR in A. lia.
Qed.

(** ** C61: without an unchoke message there is no session *)

Lemma read_like : forall x s o x1, reads_like x s -> read_message x = Ret (o, x1) ->
  reads_like x1 (snd (read_stream s)) /\ p_choked x1 = p_choked x /\
  (forall m, o = Some m -> exists body len, fst (read_stream s) = Some (body, msg_id m, len)).
Proof.
  intros x s o x1 (so & w & E) R. unfold read_message in R. rewrite E, stream_out in R.
  destruct (fst (read_stream s)) as [[[body id] len]|].
  - destruct (new_raw body len id) as [q| |] eqn:NR; try discriminate. cbn [obind] in R. injection R as <- <-.
    split; [exists so, w; reflexivity|]. split; [reflexivity|]. intros m Em. destruct q as [q|]; [|discriminate]. cbn in Em. injection Em as ->.
    exists body, len. rewrite (parsed_id (id, body) m) by (exists len; exact NR). reflexivity.
  - injection R as <- <-. split; [exists so, w; reflexivity|]. split; [reflexivity|]. discriminate.
Qed.

Lemma unchoke_apply : forall x m, p_choked x = true -> p_choked (apply_message x m) = false -> msg_id m = 1%N.
Proof.
  intros x m T F. unfold apply_message in F. destruct (msg_id m =? 0)%N; [discriminate|].
  destruct (N.eqb_spec (msg_id m) 1); [auto|]. exfalso. unfold apply_content in F.
  repeat match type of F with context [if ?b then _ else _] => destruct b end; try congruence;
    destruct (msg_content m) as [|ex| | | |]; try (cbn in F; congruence);
    destruct (ex_is_handshake ex); cbn in F; congruence.
Qed.

Lemma read_apply_like : forall x s x1, reads_like x s -> read_and_apply x = Ret x1 ->
  reads_like x1 (snd (read_stream s)) /\
  (p_choked x = true -> p_choked x1 = false -> exists body len, fst (read_stream s) = Some (body, 1%N, len)).
Proof.
  intros x s x1 RL H. unfold read_and_apply in H. destruct (read_message x) as [[o x0]| |] eqn:R; try discriminate.
  cbn [obind] in H. injection H as <-. destruct (read_like _ _ _ _ RL R) as (RL1 & C & M).
  destruct o as [m|].
  - split; [apply apply_reads_like; auto|]. intros T F. rewrite <- C in T. destruct (M m eq_refl) as (body & len & Q).
    rewrite (unchoke_apply _ _ T F) in Q. eauto.
  - split; [auto|]. intros T F. congruence.
Qed.

Lemma in_messages_S : forall n s v, fst (read_stream s) = Some v \/ In (Some v) (fst (read_messages n (snd (read_stream s)))) ->
  In (Some v) (fst (read_messages (S n) s)).
Proof.
  intros n s v H. cbn [read_messages]. destruct (read_stream s) as [r s1]. cbn [fst snd] in H.
  destruct (read_messages n s1) as [rs s2]. cbn [fst] in *. destruct H as [->|H]; [left|right]; auto.
Qed.

Lemma in_messages_inv : forall n s v, In (Some v) (fst (read_messages (S n) s)) ->
  fst (read_stream s) = Some v \/ In (Some v) (fst (read_messages n (snd (read_stream s)))).
Proof.
  intros n s v H. cbn [read_messages] in H. destruct (read_stream s) as [r s1].
  destruct (read_messages n s1) as [rs s2] eqn:E. cbn [fst snd] in *. rewrite E. destruct H as [H|H]; auto.
Qed.

Lemma rounds_unchoke : forall n x s y, reads_like x s -> p_choked x = true -> init_rounds n x = Ret (Ok tt, y) ->
  exists body len, In (Some (body, 1%N, len)) (fst (read_messages n s)).
Proof.
  induction n as [|n IH]; intros x s y RL C H; cbn [init_rounds] in H; [discriminate|].
  destruct (read_and_apply x) as [x1| |] eqn:R; try discriminate. cbn [obind] in H.
  destruct (read_apply_like _ _ _ RL R) as (RL1 & U).
  destruct (p_choked x1) eqn:C1.
  - unfold is_ready in H. rewrite C1, andb_false_r in H. destruct (IH _ _ _ RL1 C1 H) as (body & len & I).
    exists body, len. apply in_messages_S. auto.
  - destruct (U C eq_refl) as (body & len & Q). exists body, len. apply in_messages_S. auto.
Qed.

Lemma c61_unchoke : forall pid s ih y, init_peer (peer_new pid s ih) = Ret (Ok tt, y) ->
  exists body len, In (Some (body, 1%N, len)) (fst (read_messages 11 s)).
Proof.
  intros pid s ih y H. unfold init_peer in H. cbn [peer_new p_info_hash p_id] in H. fold (peer_new pid s ih) in H.
  assert (RL : reads_like (send_message (peer_new pid s ih) (new_handshake ih pid)) s).
  { apply write_reads_like. exists (st_sent s), (st_wsched s). rewrite out_self. reflexivity. }
  assert (C : p_choked (send_message (peer_new pid s ih) (new_handshake ih pid)) = true) by reflexivity.
  set (x0 := send_message (peer_new pid s ih) (new_handshake ih pid)) in *. clearbody x0.
  destruct (read_and_apply x0) as [x1| |] eqn:R; try discriminate. cbn [obind] in H.
  destruct (read_apply_like _ _ _ RL R) as (RL1 & U).
  destruct (negb (is_active x1)); [discriminate|].
  destruct (peer_send_metadata_handshake (send_message x1 new_interested)) as [ok x3] eqn:P.
  destruct (negb ok); [discriminate|].
  destruct (p_choked x1) eqn:C1.
  - assert (RL3 : reads_like x3 (snd (read_stream s)) /\ p_choked x3 = true).
    { pose proof (write_reads_like x1 new_interested _ RL1) as (o & w & E). unfold peer_send_metadata_handshake, send_metadata_handshake_request, write_all in P.
      rewrite E in P. cbn [out st_wsched st_sent] in P. destruct w as [|[k|] w]; injection P as <- <-; (split; [eexists _, _; reflexivity|exact C1]). }
    destruct RL3 as [RL3 C3]. destruct (rounds_unchoke 10 _ _ _ RL3 C3 H) as (body & len & I).
    exists body, len. apply in_messages_S. auto.
  - destruct (U C eq_refl) as (body & len & Q). exists body, len. apply in_messages_S. auto.
Qed.

Lemma arrived_read : forall s id body rest, short_body body -> arrived s (frame id body ++ rest) ->
  exists s', read_stream s = (Some (body, id, lenN body), s') /\ arrived s' rest.
Proof.
  intros s id body rest SB (A & I & NE). destruct (c30 s id body rest SB (all_no_errors 44 s NE) A) as (s' & m & R & I' & A').
  exists s'. split; [auto|]. rewrite I in I'. apply app_inv_head in I'.
  assert (M : m = []).
  { unfold incoming in I'. rewrite A' in I'. apply (f_equal (@List.length N)) in I'. rewrite !app_length in I'. destruct m; [auto|cbn in I'; lia]. }
  subst m. rewrite app_nil_r in A'. split; [auto|]. split; [auto|].
  eapply later_no_errors; [|exact NE]. pose proof (stream_later s) as L. rewrite R in L. exact L.
Qed.

Lemma arrived_nothing : forall s, arrived s [] -> fst (read_stream s) = None /\ arrived (snd (read_stream s)) [].
Proof.
  intros s (A & I & NE). destruct (stream_incoming s) as [L1 L2]. rewrite I in L1, L2. cbn [List.length] in *.
  split.
  - destruct (fst (read_stream s)) as [v|]; [|auto]. specialize (L2 v eq_refl). lia.
  - assert (Z : incoming (snd (read_stream s)) = []) by (destruct (incoming (snd (read_stream s))); [auto|cbn in L1; lia]).
    split; [|split; [auto|eapply later_no_errors; [apply stream_later|exact NE]]].
    unfold incoming in Z. apply app_eq_nil in Z. tauto.
Qed.

Lemma arrived_ids : forall n ms s, Forall (fun m => short_body (snd m)) ms -> Forall (fun m => fst m <> 1%N) ms ->
  arrived s (flat_map (fun m => frame (fst m) (snd m)) ms) ->
  forall body len, ~ In (Some (body, 1%N, len)) (fst (read_messages n s)).
Proof.
  induction n as [|n IH]; intros ms s SB NI A body len H; [exact H|].
  cbn [read_messages] in H. destruct ms as [|[id b] ms]; cbn [flat_map fst snd] in A.
  - destruct (arrived_nothing s A) as [F A1]. destruct (read_stream s) as [r s1]. cbn [fst snd] in *. subst r.
    destruct (read_messages n s1) as [rs s2] eqn:E. cbn [fst] in H. destruct H as [H|H]; [discriminate|].
    apply (IH [] s1 ltac:(constructor) ltac:(constructor) A1 body len). rewrite E. exact H.
  - inversion SB; subst. inversion NI; subst. cbn [fst snd] in *. destruct (arrived_read _ _ _ _ H2 A) as (s1 & R & A1). rewrite R in H.
    destruct (read_messages n s1) as [rs s2] eqn:E. cbn [fst] in H. destruct H as [H|H]; [injection H; congruence|].
    apply (IH ms s1 H3 H5 A1 body len). rewrite E. exact H.
Qed.

Lemma decimal_short : forall n, (n < 2 ^ 64)%N -> (lenN (decimal n) <= 20)%N.
Proof.
  intros n L. destruct (decimal_canon n) as [C V]. destruct (decimal n) as [|d t]; [cbn; lia|].
  destruct t as [|d2 t]; [cbn; lia|]. pose proof (canon_numeral_ge d (d2 :: t) C ltac:(discriminate)) as G. rewrite V in G.
  destruct (N.le_gt_cases (lenN (d :: d2 :: t)) 20) as [|H]; [auto|]. exfalso.
  assert (P : (10 ^ 20 <= 10 ^ lenN (d2 :: t))%N) by (apply N.pow_le_mono_r; [lia|unfold lenN in *; cbn [List.length] in *; lia]).
  assert (Q : (2 ^ 64 < 10 ^ 20)%N) by reflexivity. lia.
Qed.

Lemma client_request_frame : forall r, is_client_request r -> exists id body, r = frame id body /\ short_body body /\ id <> 1%N.
Proof.
  intros r [(i & total & plen & n & ->)|(id & n & L & ->)].
  - unfold block_request_bytes. eexists _, _. split; [reflexivity|]. split; [|discriminate].
    unfold short_body, lenN. rewrite !app_length, !big_endian_length. reflexivity.
  - unfold info_request_bytes. eexists _, _. split; [reflexivity|]. split; [|discriminate].
    unfold short_body. pose proof (decimal_short n L) as D. unfold lenN in *. cbn [List.length].
    rewrite metadata_request_bytes, !app_length.
    change (List.length (s2b "d8:msg_typei0e5:piecei")) with 22%nat. change (List.length (s2b "ee")) with 2%nat. lia.
Qed.

Lemma requests_frames : forall reqs, Forall is_client_request reqs ->
  exists ms, List.concat reqs = flat_map (fun m => frame (fst m) (snd m)) ms /\
    Forall (fun m => short_body (snd m)) ms /\ Forall (fun m : N * bytes => fst m <> 1%N) ms.
Proof.
  intros reqs H. induction H as [|r reqs R H (ms & E & S & I)]; [exists []; repeat split; constructor|].
  destruct (client_request_frame r R) as (id & body & -> & SB & NI). exists ((id, body) :: ms).
  cbn [List.concat flat_map fst snd]. rewrite E. repeat split; constructor; auto.
Qed.

Lemma c61_instances : forall pid s ih b y, sent_by_client b -> arrived s b -> init_peer (peer_new pid s ih) <> Ret (Ok tt, y).
Proof.
  intros pid s ih b y (pid' & ih' & reqs & LP & LI & F & ->) A H. destruct (c61_unchoke _ _ _ _ H) as (body & len & I).
  destruct (requests_frames reqs F) as (ms & E & SB & NI).
  rewrite concat_app, E in A. unfold opening_messages in A. cbn [List.concat] in A. rewrite app_nil_r, <- !app_assoc in A.
  assert (LH : List.length (handshake_layout ih' pid') = 68%nat) by (unfold handshake_layout; rewrite !app_length, LP, LI; reflexivity).
  destruct A as (A & IN & NE).
  destruct (c30_handshake s (handshake_layout ih' pid') _ (all_no_errors 3 s NE) LH eq_refl A) as (s1 & m & R & I1 & A1).
  rewrite IN in I1. apply app_inv_head in I1.
  assert (M : m = []).
  { unfold incoming in I1. rewrite A1 in I1. apply (f_equal (@List.length N)) in I1. rewrite !app_length in I1. destruct m; [auto|cbn in I1; lia]. }
  subst m. rewrite app_nil_r in A1.
  assert (NE1 : Forall (fun t => t <> TErr) (st_sched s1)).
  { eapply later_no_errors; [|exact NE]. pose proof (stream_later s) as L. rewrite R in L. exact L. }
  apply in_messages_inv in I. rewrite R in I. cbn [fst snd] in I. destruct I as [I|I]; [discriminate|].
  set (e := 0%N :: benc (BDict [(s2b "m", BDict [(s2b "ut_metadata", BInt 1); (s2b "ut_pex", BInt 2)]); (s2b "metadata_size", BInt 28282)])) in *.
  apply (arrived_ids 10 ((2%N, []) :: (20%N, e) :: ms) s1) with (body := body) (len := len).
  - constructor; [reflexivity|]. constructor; [reflexivity|auto].
  - constructor; [discriminate|]. constructor; [discriminate|auto].
  - split; [exact A1|]. split; [auto|auto].
  - exact I.
Qed.

(** ** C61: what the extension handshake says *)
Lemma c61_announced : exists m e, parsed (20%N, skipn 5 extension_handshake) m /\ states_size m = Some (28282%N, e) /\
  hm_get e (s2b "ut_metadata") = Some 1%N /\ hm_get e (s2b "ut_pex") = Some 2%N.
Proof.
  eexists _, _. split; [exists 59%N; vm_compute; reflexivity|]. vm_compute. auto.
Qed.

(** What a session with nothing but successful writes leaves on the wire. *)
Lemma c61_client : forall fuel p plen i total pid s ih x y, List.length pid = 20%nat -> List.length ih = 20%nat ->
  (0 < plen)%N -> (i < piece_count total plen)%N -> (total + plen <= 2 ^ 64)%N -> (i < 2 ^ 32)%N -> (plen < 2 ^ 32)%N ->
  st_wsched s = [] -> st_sent s = [] -> init_peer (peer_new pid s ih) = Ret (Ok tt, x) ->
  (exists r, download_block p fuel plen i total x = Ret (r, y)) \/ (exists r, download_info fuel x = Ret (r, y)) ->
  sent_by_client (st_sent (p_stream y)).
Proof.
  intros fuel p plen i total pid s ih x y LP LI P I O I32 P32 W S0 HI [[r H]|[r H]].
  - destruct (c61_piece _ _ _ _ _ _ _ _ _ _ _ P I O I32 P32 HI H) as (asks & (new & E & _ & C) & _).
    exists pid, ih, (map (block_request_bytes i total plen) asks). split; [auto|]. split; [auto|]. split; [|rewrite E, S0, C by auto; reflexivity].
    apply Forall_forall. intros b B. apply in_map_iff in B as (n & <- & _). left. eexists _, _, _, _. reflexivity.
  - destruct (c61_metadata _ _ _ _ _ _ _ HI H) as (asks & msgs & (new & E & _ & C) & F & _ & L & _).
    exists pid, ih, msgs. split; [auto|]. split; [auto|]. split; [|rewrite E, S0, C by auto; reflexivity].
    pose proof (init_small _ _ _ _ _ HI) as SM. unfold small in SM.
    assert (LB : forall n, In n asks -> (n < 2 ^ 64)%N).
    { intros n In. specialize (L n In). destruct (count_bounds (p_metadata_size x) 16384 ltac:(lia)) as (_ & _ & C3). specialize (C3 n L). lia. }
    clear - F LB. induction F as [|n m asks msgs [id ->] F IH]; constructor.
    + right. exists id, n. split; [apply LB; left; auto|reflexivity].
    + apply IH. intros k K. apply LB. right. auto.
Qed.
