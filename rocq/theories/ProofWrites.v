(** ProofWrites: lemmas for C67 *)
From Verif Require Import Base Utf8 ModelBencode ModelMessages ModelTorrent ModelTracker ModelStream ModelPeer
  SpecBencode SpecMessages SpecWriter SpecPieces SpecStream SpecPeer SpecSession SpecWrites
  ProofBase ProofMessages ProofStream ProofPeer ProofSession ProofOutput.

Definition quiet (s : stream) : stream :=
  {| st_avail := st_avail s; st_closed := st_closed s; st_sched := st_sched s; st_wsched := []; st_sent := [] |}.
Definition qs {A} (r : A * stream) : A * stream := (fst r, quiet (snd r)).

Lemma quiet_same : forall s s', same_input s s' <-> quiet s = quiet s'.
Proof.
  intros s s'. unfold same_input, quiet. split; [intros (-> & -> & ->); auto|]. intros H. injection H as -> -> ->. auto.
Qed.
Lemma env_quiet : forall s, env_step (quiet s) = qs (env_step s).
Proof. intros s. unfold env_step, qs, quiet. cbn [st_sched st_closed st_avail st_wsched st_sent]. destruct (st_sched s) as [|[] ?] eqn:E; cbn; rewrite ?E; auto. Qed.
Lemma peek_quiet : forall n s, peek n (quiet s) = qs (peek n s).
Proof.
  intros n s. unfold peek. rewrite env_quiet. destruct (env_step s) as [[] s1]; cbn [qs fst snd]; [auto|].
  cbn [quiet st_avail st_closed]. destruct (st_avail s1); auto.
Qed.
Lemma read_quiet : forall n s, read n (quiet s) = qs (read n s).
Proof.
  intros n s. unfold read. rewrite env_quiet. destruct (env_step s) as [[] s1]; cbn [qs fst snd]; [auto|].
  cbn [quiet st_avail st_closed]. destruct (st_avail s1); auto.
Qed.
Lemma has_quiet : forall s, has_messages (quiet s) = qs (has_messages s).
Proof. intros s. unfold has_messages. rewrite peek_quiet. destruct (peek 1 s); auto. Qed.
Lemma par_quiet : forall n s, peek_and_read n (quiet s) = qs (peek_and_read n s).
Proof.
  intros n s. unfold peek_and_read. rewrite peek_quiet. destruct (peek n s) as [pk s1]; cbn [qs fst snd].
  destruct (_ =? n)%N; [|auto]. rewrite read_quiet. destruct (read n s1) as [rd s2]; cbn [qs fst snd].
  destruct (_ =? n)%N; auto.
Qed.
Lemma body_quiet : forall t n s, read_body t n (quiet s) = qs (read_body t n s).
Proof.
  induction t as [|t IH]; intros n s; cbn [read_body]; [auto|]. rewrite par_quiet.
  destruct (peek_and_read n s) as [[b|] s1]; cbn [qs fst snd]; auto.
Qed.
Lemma frame_quiet : forall s, read_frame (quiet s) = qs (read_frame s).
Proof.
  intros s. unfold read_frame. rewrite read_quiet. destruct (read 4 s) as [[g|] s1]; cbn [qs fst snd]; [|auto].
  rewrite read_quiet. destruct (read 1 s1) as [[g1|] s2]; cbn [qs fst snd]; [|auto].
  destruct (_ =? 0)%N; [auto|]. rewrite body_quiet. destruct (read_body 39 _ s2) as [[b|] s3]; auto.
Qed.
Lemma stream_quiet : forall s, read_stream (quiet s) = qs (read_stream s).
Proof.
  intros s. unfold read_stream. rewrite has_quiet. destruct (has_messages s) as [[] s1]; cbn [qs fst snd negb]; [|auto].
  rewrite peek_quiet. destruct (peek 68 s1) as [[b|] s2]; cbn [qs fst snd]; [|apply frame_quiet].
  destruct (_ && _); [|apply frame_quiet]. rewrite read_quiet. destruct (read 68 s2) as [[g|] s3]; auto.
Qed.

Definition forget (x : peer) : peer := with_stream x (quiet (p_stream x)).
Definition blur {A} (o : outcome (A * peer)) : outcome (A * peer) :=
  match o with Ret (a, x) => Ret (a, forget x) | Panic => Panic | OutOfFuel => OutOfFuel end.

Lemma ret_pair : forall {A B} (a a' : A) (b b' : B), Ret (a, b) = Ret (a', b') -> a = a' /\ b = b'.
Proof. intros A B a a' b b' H. injection H as -> ->. auto. Qed.

Lemma read_forget : forall x, read_message (forget x) = blur (read_message x).
Proof.
  intros x. unfold read_message. cbn [forget with_stream p_stream]. rewrite stream_quiet.
  destruct (read_stream (p_stream x)) as [[[[b id] n]|] s]; cbn [qs fst snd]; [|auto].
  destruct (new_raw b n id) as [r| |]; auto.
Qed.
Lemma apply_forget : forall x m, apply_message (forget x) m = forget (apply_message x m).
Proof.
  intros x m. unfold apply_message, apply_content. repeat (destruct (_ =? _)%N; [try reflexivity|]); try reflexivity;
  destruct (msg_content m); try reflexivity; destruct (ex_is_handshake _); reflexivity.
Qed.
Lemma write_quiet : forall s b, quiet (write_stream s b) = quiet s.
Proof. intros s b. unfold write_stream, write_all. destruct (st_wsched s) as [|[n|] r]; auto. Qed.
Lemma send_forget : forall x m, forget (send_message x m) = forget x.
Proof. intros x m. unfold send_message, forget. cbn [with_stream p_stream]. rewrite write_quiet. reflexivity. Qed.

Lemma raa_forget : forall x y, forget x = forget y ->
  match read_and_apply x, read_and_apply y with
  | Ret a, Ret b => forget a = forget b | Panic, Panic => True | OutOfFuel, OutOfFuel => True | _, _ => False end.
Proof.
  intros x y E. pose proof (read_forget x) as X. pose proof (read_forget y) as Y. rewrite <- E, X in Y.
  unfold read_and_apply. destruct (read_message x) as [[m a]| |], (read_message y) as [[m' b]| |]; cbn [blur obind] in *; try congruence; auto.
  apply ret_pair in Y as [<- Y]. destruct m; [|auto]. rewrite <- !apply_forget. congruence.
Qed.
Lemma rounds_forget : forall n x y, forget x = forget y -> blur (init_rounds n x) = blur (init_rounds n y).
Proof.
  induction n as [|n IH]; intros x y E; cbn [init_rounds]; [cbn; congruence|].
  pose proof (raa_forget x y E) as R. destruct (read_and_apply x) as [a| |], (read_and_apply y) as [b| |]; try tauto; auto.
  cbn [obind]. replace (is_ready a) with (is_ready b); [|change (is_ready (forget b) = is_ready (forget a)); congruence].
  destruct (is_ready b); [cbn; congruence|auto].
Qed.

(** The parts of the initialisation before and after the third write. *)
Lemma init_shape : forall x, init_peer x =
  (x1 <- read_and_apply (send_message x (new_handshake (p_info_hash x) (p_id x))) ;;
   if negb (is_active x1) then Ret (Err MEHandshake, x1)
   else let (ok, x3) := peer_send_metadata_handshake (send_message x1 new_interested) in
     if negb ok then Ret (Err MEHandshakeMetadata, x3) else init_rounds 10 x3).
Proof. reflexivity. Qed.

Lemma write_sched : forall s b, st_wsched (write_stream s b) = tl (st_wsched s).
Proof. intros s b. unfold write_stream, write_all. destruct (st_wsched s) as [|[n|] r]; auto. Qed.
Lemma raa_sched : forall x y, read_and_apply x = Ret y -> st_wsched (p_stream y) = st_wsched (p_stream x).
Proof.
  intros x y H. unfold read_and_apply in H. destruct (read_message x) as [[m a]| |] eqn:R; cbn [obind] in H; try discriminate.
  injection H as <-. apply read_message_inv in R as (s & -> & _ & [_ S] & _).
  destruct m as [m|]; [destruct (apply_message_fixed (with_stream x s) m) as [-> _]|]; exact S.
Qed.
Lemma tltl_hd : forall {A} (l : list A), hd_error (tl (tl l)) = nth_error l 2.
Proof. intros A [|a [|b [|c l]]]; reflexivity. Qed.
Lemma meta_ok : forall x, fst (peer_send_metadata_handshake x) = match hd_error (st_wsched (p_stream x)) with Some (Some _) => false | _ => true end.
Proof. intros x. unfold peer_send_metadata_handshake, send_metadata_handshake_request, write_all. destruct (st_wsched (p_stream x)) as [|[n|] r]; auto. Qed.
Lemma meta_forget : forall x, forget (snd (peer_send_metadata_handshake x)) = forget x.
Proof.
  intros x. unfold peer_send_metadata_handshake, send_metadata_handshake_request.
  pose proof (write_quiet (p_stream x) metadata_handshake_bytes) as Q. unfold write_stream in Q.
  destruct (write_all _ _) as [ok s]. cbn [snd] in *. unfold forget. cbn [with_stream p_stream]. rewrite Q. reflexivity.
Qed.
Lemma third_dec : forall s, third_write_fails s \/ ~ third_write_fails s.
Proof. intros s. unfold third_write_fails. destruct (nth_error (st_wsched s) 2) as [[n|]|]; [left; eauto|right; intros [m E]; discriminate|right; intros [m E]; discriminate]. Qed.
Lemma third_fst : forall x x1, read_and_apply (send_message x (new_handshake (p_info_hash x) (p_id x))) = Ret x1 ->
  (third_write_fails (p_stream x) -> fst (peer_send_metadata_handshake (send_message x1 new_interested)) = false) /\
  (~ third_write_fails (p_stream x) -> fst (peer_send_metadata_handshake (send_message x1 new_interested)) = true).
Proof.
  intros x x1 R. apply raa_sched in R. rewrite meta_ok. unfold send_message in *. cbn [with_stream p_stream] in *.
  rewrite write_sched in *. rewrite R, tltl_hd. unfold third_write_fails.
  destruct (nth_error (st_wsched (p_stream x)) 2) as [[n|]|]; split; auto; intros H; try (destruct H; eauto; discriminate). 
  all: try (destruct H as [? H]; discriminate).
Qed.

Lemma init_forget : forall x y, forget x = forget y -> ~ third_write_fails (p_stream x) -> ~ third_write_fails (p_stream y) ->
  blur (init_peer x) = blur (init_peer y).
Proof.
  intros x y E Tx Ty. rewrite !init_shape.
  assert (E0 : forget (send_message x (new_handshake (p_info_hash x) (p_id x))) = forget (send_message y (new_handshake (p_info_hash y) (p_id y))))
    by (rewrite !send_forget; auto).
  pose proof (raa_forget _ _ E0) as R. pose proof (third_fst x) as Fx. pose proof (third_fst y) as Fy.
  destruct (read_and_apply (send_message x _)) as [a| |], (read_and_apply (send_message y _)) as [b| |]; try tauto; auto. cbn [obind].
  destruct (Fx a eq_refl) as [_ Ox]. destruct (Fy b eq_refl) as [_ Oy]. specialize (Ox Tx). specialize (Oy Ty).
  replace (is_active a) with (is_active b); [|change (is_active (forget b) = is_active (forget a)); congruence].
  destruct (is_active b); cbn [negb]; [|cbn; congruence].
  pose proof (meta_forget (send_message a new_interested)) as Ma. pose proof (meta_forget (send_message b new_interested)) as Mb.
  destruct (peer_send_metadata_handshake (send_message a _)) as [o1 a3], (peer_send_metadata_handshake (send_message b _)) as [o2 b3].
  cbn [fst snd] in *. subst o1 o2. cbn [negb]. apply rounds_forget. rewrite Ma, Mb, !send_forget. auto.
Qed.

Lemma execute_forget : forall filter next next', (forall x y n, forget x = forget y ->
    match next x n, next' y n with Ret a, Ret b => forget a = forget b | Panic, Panic => True | OutOfFuel, OutOfFuel => True | _, _ => False end) ->
  forall fuel x y b idle, forget x = forget y -> blur (execute fuel filter next x b idle) = blur (execute fuel filter next' y b idle).
Proof.
  intros filter next next' N. induction fuel as [|f IH]; intros x y b idle E; cbn [execute]; [auto|].
  pose proof (read_forget x) as X. pose proof (read_forget y) as Y. rewrite <- E, X in Y.
  destruct (read_message x) as [[m x1]| |], (read_message y) as [[m' y1]| |]; cbn [blur obind] in *; try congruence.
  apply ret_pair in Y as [<- Y].
  set (X2 := match m with Some m => (apply_message x1 m, push_message filter b m, 0%N) | None => (x1, b, idle) end).
  set (Y2 := match m with Some m => (apply_message y1 m, push_message filter b m, 0%N) | None => (y1, b, idle) end).
  assert (H : forget (fst (fst X2)) = forget (fst (fst Y2)) /\ snd (fst X2) = snd (fst Y2) /\ snd X2 = snd Y2).
  { destruct m; cbn [X2 Y2 fst snd]; [rewrite <- !apply_forget|]; repeat split; congruence. }
  destruct X2 as [[x2 b1] i1], Y2 as [[y2 b1'] i1']. cbn [fst snd] in H. destruct H as (H & <- & <-).
  destruct (is_full b1); [cbn; congruence|].
  replace (is_choked y2) with (is_choked x2); [|change (is_choked (forget x2) = is_choked (forget y2)); congruence].
  destruct (is_choked x2); [cbn; congruence|].
  unfold request_next_message. destruct (is_len_as_expected b1 || is_full b1); cbn [obind].
  - destruct (10 <? i1 + 1)%N; [cbn; congruence|auto].
  - specialize (N x2 y2 (lenN (mb_buffer b1)) H).
    destruct (next x2 _) as [a| |], (next' y2 _) as [c| |]; try tauto; cbn [obind]; auto.
    destruct (10 <? i1 + 1)%N; [cbn; congruence|auto].
Qed.
Lemma block_forget : forall p fuel plen i total x y, forget x = forget y ->
  blur (download_block p fuel plen i total x) = blur (download_block p fuel plen i total y).
Proof.
  intros p fuel plen i total x y E. unfold download_block. destruct (real_piece_length p plen i total); cbn [obind]; auto.
  destruct (step_by_len _ _); cbn [obind]; auto. apply execute_forget; auto. intros x1 y1 n H. unfold next_block.
  destruct (block_request _ _ _ _ _ _) as [[[? ?] ?]| |]; cbn [obind]; auto. rewrite !send_forget. auto.
Qed.
Lemma info_forget : forall fuel x y, forget x = forget y -> blur (download_info fuel x) = blur (download_info fuel y).
Proof.
  intros fuel x y E. unfold download_info. replace (get_metadata_size y) with (get_metadata_size x);
    [|change (get_metadata_size (forget x) = get_metadata_size (forget y)); congruence].
  destruct (step_by_len _ _); cbn [obind]; auto. apply execute_forget; auto. intros x1 y1 n H. unfold next_piece.
  replace (get_extension_id_by_name y1 (s2b "ut_metadata")) with (get_extension_id_by_name x1 (s2b "ut_metadata"));
    [|change (get_extension_id_by_name (forget x1) (s2b "ut_metadata") = get_extension_id_by_name (forget y1) (s2b "ut_metadata")); congruence].
  destruct (get_extension_id_by_name x1 _); cbn [obind]; auto. destruct (new_metadata _ _); cbn [obind]; auto. rewrite !send_forget. auto.
Qed.
Lemma new_forget : forall pid s s' ih, same_input s s' -> forget (peer_new pid s ih) = forget (peer_new pid s' ih).
Proof. intros pid s s' ih E. apply quiet_same in E. unfold forget, with_stream. cbn [p_stream peer_new]. rewrite E. reflexivity. Qed.

(** C67: same result *)
Lemma c67_piece : forall sha1 p fuel s s' pid ep i idx, same_input s s' -> ~ third_write_fails s -> ~ third_write_fails s' ->
  download sha1 p fuel (Some s) pid ep i idx = download sha1 p fuel (Some s') pid ep i idx.
Proof.
  intros sha1 p fuel s s' pid ep i idx E T T'. unfold download, connect. destruct (parse_socket_addr ep); cbn [obind orbind]; [|auto].
  pose proof (init_forget _ _ (new_forget pid s s' (compute_info_hash sha1 i) E) T T') as I.
  destruct (init_peer (peer_new pid s _)) as [[[[]|e] x]| |], (init_peer (peer_new pid s' _)) as [[[[]|e'] y]| |]; cbn [blur obind] in *; try congruence.
  apply ret_pair in I as [_ F]. destruct (get_total_length p i) as [total| |]; cbn [obind]; auto.
  pose proof (block_forget p fuel (get_piece_length i) idx total x y F) as B.
  destruct (download_block _ _ _ _ _ x) as [[d x2]| |], (download_block _ _ _ _ _ y) as [[d' y2]| |]; cbn [blur obind] in *; try congruence.
  apply ret_pair in B as [<- B]. destruct d; auto.
Qed.
Lemma c67_metadata : forall fuel s s' pid ih ep, same_input s s' -> ~ third_write_fails s -> ~ third_write_fails s' ->
  get_info fuel (Some s) pid ih ep = get_info fuel (Some s') pid ih ep.
Proof.
  intros fuel s s' pid ih ep E T T'. unfold get_info, connect. destruct (parse_socket_addr ep); cbn [obind orbind]; [|auto].
  pose proof (init_forget _ _ (new_forget pid s s' ih E) T T') as I.
  destruct (init_peer (peer_new pid s _)) as [[[[]|e] x]| |], (init_peer (peer_new pid s' _)) as [[[[]|e'] y]| |]; cbn [blur obind] in *; try congruence.
  apply ret_pair in I as [_ F]. pose proof (info_forget fuel x y F) as B.
  destruct (download_info fuel x) as [[d x2]| |], (download_info fuel y) as [[d' y2]| |]; cbn [blur obind] in *; try congruence.
  apply ret_pair in B as [<- B]. destruct d; auto.
Qed.

(** ** The third write *)

Lemma parsed_19 : forall body len, (68 <= List.length body)%nat -> exists h,
  new_raw body len 19 = Ret (Ok {| msg_id := 19; msg_length := len; msg_content := CHandshake h |}) /\ hs_get_info_hash h = firstn 20 (skipn 28 body).
Proof.
  intros body len L. unfold new_raw. cbn [N.eqb Pos.eqb orb]. unfold handshake_from_bytes, index.
  destruct (nth_error body 0) eqn:E; [|apply nth_error_None in E; lia]. cbn [obind].
  rewrite !slice_in by lia. cbn [obind]. eexists. split; [reflexivity|]. reflexivity.
Qed.

Lemma active_iff : forall pid s ih x1, read_and_apply (peer_new pid s ih) = Ret x1 -> (is_active x1 = true <-> greets s ih).
Proof.
  intros pid s ih x1 H. unfold read_and_apply, read_message in H. cbn [peer_new p_stream] in H. unfold greets.
  destruct (read_stream s) as [[[[body id] len]|] s1]; cbn [fst].
  - destruct (new_raw body len id) as [[m|e]| |] eqn:R; cbn [obind res_ok] in H; try discriminate; injection H as <-.
    + pose proof (c33 pid s1 ih [(id, body)] [m]) as C. cbn zeta in C. destruct C as (_ & _ & C & _).
      { constructor; [|constructor]. exists len. exact R. }
      cbn [fold_left] in C. unfold is_active. change (with_stream _ s1) with (peer_new pid s1 ih). rewrite C.
      unfold last_of. cbn [rev app find]. unfold handshake_id. cbn [fst]. destruct (N.eqb_spec id 19) as [->|D].
      * assert (L : (68 <= List.length body)%nat).
        { destruct (le_lt_dec 68 (List.length body)); [auto|]. unfold new_raw in R. cbn [N.eqb Pos.eqb orb] in R. rewrite c14_short in R by auto. discriminate. }
        split; [intros (r & E & F); injection E as <-; eauto|intros (b & l & E & _ & F)]. injection E as <- _. eexists; split; [reflexivity|auto].
      * split; [intros (r & E & _); discriminate|intros (b & l & E & _)]. congruence.
    + unfold is_active. cbn [with_stream p_active]. split; [discriminate|]. intros (b & l & E & L & _). injection E as -> -> ->.
      destruct (parsed_19 b l L) as (h & Q & _). congruence.
  - cbn [obind] in H. injection H as <-. split; [discriminate|]. intros (b & l & E & _). discriminate.
Qed.

Lemma send_new : forall pid s ih m, send_message (peer_new pid s ih) m = peer_new pid (write_stream s (message_as_bytes m)) ih.
Proof. reflexivity. Qed.
Lemma greets_same : forall s s' ih, same_input s s' -> (greets s ih <-> greets s' ih).
Proof.
  intros s s' ih E. apply quiet_same in E. unfold greets.
  pose proof (stream_quiet s) as A. pose proof (stream_quiet s') as B. rewrite E, B in A.
  assert (Q : fst (read_stream s') = fst (read_stream s)) by (unfold qs in A; congruence). rewrite Q. tauto.
Qed.
Lemma write_same : forall s b, same_input (write_stream s b) s.
Proof. intros s b. apply quiet_same. apply write_quiet. Qed.

(** If the third write fails: *)
Lemma init_third : forall pid s ih, third_write_fails s ->
  (greets s ih -> exists y, init_peer (peer_new pid s ih) = Ret (Err MEHandshakeMetadata, y)) /\
  (forall s', same_input s s' -> ~ greets s ih -> blur (init_peer (peer_new pid s ih)) = blur (init_peer (peer_new pid s' ih))).
Proof.
  intros pid s ih T. split.
  - intros G. rewrite init_shape. pose proof (third_fst (peer_new pid s ih)) as F. cbn [peer_new p_info_hash p_id] in *. fold (peer_new pid s ih) in *.
    rewrite send_new in *. set (b := message_as_bytes (new_handshake ih pid)) in *.
    destruct G as (body & len & E & L & HH).
    assert (G' : greets (write_stream s b) ih) by (apply (greets_same (write_stream s b) s); [apply write_same|unfold greets; eauto]).
    destruct (read_and_apply (peer_new pid (write_stream s b) ih)) as [x1| |] eqn:R.
    + cbn [obind]. apply active_iff in R as A. apply A in G'. rewrite G'. cbn [negb]. destruct (F x1 eq_refl) as [F1 _]. specialize (F1 T).
      destruct (peer_send_metadata_handshake _) as [ok x3]. cbn [fst] in F1. subst ok. eexists; reflexivity.
    + exfalso. destruct G' as (body' & len' & E' & L' & _). unfold read_and_apply, read_message in R. cbn [peer_new p_stream] in R.
      destruct (read_stream (write_stream s b)) as [v s1]. cbn [fst] in E'. subst v. destruct (parsed_19 body' len' L') as (h & Q & _).
      rewrite Q in R. discriminate.
    + exfalso. destruct G' as (body' & len' & E' & L' & _). unfold read_and_apply, read_message in R. cbn [peer_new p_stream] in R.
      destruct (read_stream (write_stream s b)) as [v s1]. cbn [fst] in E'. subst v. destruct (parsed_19 body' len' L') as (h & Q & _).
      rewrite Q in R. discriminate.
  - intros s' E NG. rewrite !init_shape. cbn [peer_new p_info_hash p_id] in *. fold (peer_new pid s ih) in *. fold (peer_new pid s' ih) in *.
    rewrite !send_new in *. set (b := message_as_bytes (new_handshake ih pid)) in *.
    assert (E0 : same_input (write_stream s b) (write_stream s' b)) by (apply quiet_same; rewrite !write_quiet; apply quiet_same; auto).
    pose proof (raa_forget _ _ (new_forget pid _ _ ih E0)) as R.
    destruct (read_and_apply (peer_new pid (write_stream s b) ih)) as [x| |] eqn:Rx, (read_and_apply (peer_new pid (write_stream s' b) ih)) as [y| |];
      try tauto; auto. cbn [obind].
    apply active_iff in Rx. rewrite (greets_same _ s) in Rx by apply write_same.
    replace (is_active y) with (is_active x); [|change (is_active (forget x) = is_active (forget y)); congruence].
    destruct (is_active x); [tauto|]. cbn; congruence.
Qed.

Lemma c67_third_piece : forall sha1 p fuel s pid ep i idx, parse_socket_addr ep <> None -> third_write_fails s ->
  (greets s (compute_info_hash sha1 i) -> download sha1 p fuel (Some s) pid ep i idx = Ret (Err MEHandshakeMetadata)) /\
  (~ greets s (compute_info_hash sha1 i) -> forall s', same_input s s' -> download sha1 p fuel (Some s) pid ep i idx = download sha1 p fuel (Some s') pid ep i idx).
Proof.
  intros sha1 p fuel s pid ep i idx P T. unfold download, connect. destruct (parse_socket_addr ep); [|tauto]. cbn [obind orbind].
  destruct (init_third pid s (compute_info_hash sha1 i) T) as [A B]. split.
  - intros G. destruct (A G) as (y & ->). reflexivity.
  - intros NG s' E. specialize (B s' E NG).
    destruct (init_peer (peer_new pid s _)) as [[[[]|e] x]| |], (init_peer (peer_new pid s' _)) as [[[[]|e'] y]| |]; cbn [blur obind] in *; try congruence.
    apply ret_pair in B as [_ F]. destruct (get_total_length p i) as [total| |]; cbn [obind]; auto.
    pose proof (block_forget p fuel (get_piece_length i) idx total x y F) as B.
    destruct (download_block _ _ _ _ _ x) as [[d x2]| |], (download_block _ _ _ _ _ y) as [[d' y2]| |]; cbn [blur obind] in *; try congruence.
    apply ret_pair in B as [<- B]. destruct d; auto.
Qed.
Lemma c67_third_metadata : forall fuel s pid ih ep, parse_socket_addr ep <> None -> third_write_fails s ->
  (greets s ih -> get_info fuel (Some s) pid ih ep = Ret (Err MEHandshakeMetadata)) /\
  (~ greets s ih -> forall s', same_input s s' -> get_info fuel (Some s) pid ih ep = get_info fuel (Some s') pid ih ep).
Proof.
  intros fuel s pid ih ep P T. unfold get_info, connect. destruct (parse_socket_addr ep); [|tauto]. cbn [obind orbind].
  destruct (init_third pid s ih T) as [A B]. split.
  - intros G. destruct (A G) as (y & ->). reflexivity.
  - intros NG s' E. specialize (B s' E NG).
    destruct (init_peer (peer_new pid s _)) as [[[[]|e] x]| |], (init_peer (peer_new pid s' _)) as [[[[]|e'] y]| |]; cbn [blur obind] in *; try congruence.
    apply ret_pair in B as [_ F].
    pose proof (info_forget fuel x y F) as B.
    destruct (download_info _ x) as [[d x2]| |], (download_info _ y) as [[d' y2]| |]; cbn [blur obind] in *; try congruence.
    apply ret_pair in B as [<- B]. destruct d; auto.
Qed.

(** ** Sessions that succeed and sessions that end, whatever happens to the writes *)

Lemma quiet_input : forall s, same_input s (quiet s).
Proof. intros s. repeat split. Qed.
Lemma quiet_third : forall s, ~ third_write_fails (quiet s).
Proof. intros s [n E]. discriminate. Qed.
Lemma messages_quiet : forall n s, read_messages n (quiet s) = qs (read_messages n s).
Proof.
  induction n as [|n IH]; intros s; cbn [read_messages]; [auto|]. rewrite stream_quiet. destruct (read_stream s) as [r s1]. cbn [qs fst snd].
  rewrite IH. destruct (read_messages n s1). reflexivity.
Qed.
Lemma delivers_same : forall s s' c, same_input s s' -> delivers s c -> delivers s' c.
Proof.
  intros s s' c E D. unfold delivers in *. apply quiet_same in E.
  pose proof (messages_quiet (List.length c) s) as A. rewrite E, messages_quiet in A.
  pose proof (f_equal fst A) as F. unfold qs in F. cbn [fst] in F. rewrite F. exact D.
Qed.
Lemma cooperates_same : forall ih size s s' a b, same_input s s' -> cooperates ih size s a b -> cooperates ih size s' a b.
Proof. intros ih size s s' a b E [H1 H2 H3 H4 H5 H6]. constructor; auto. destruct H1 as (h & D & R). exists h. split; [eapply delivers_same; eauto|auto]. Qed.

Lemma c67_piece_obtained : forall sha1 p fuel s pid ep i idx total opening rest, ~ third_write_fails s ->
  ModelTracker.parse_socket_addr ep <> None -> get_total_length p i = Ret total ->
  (0 < i_piece_length i)%N -> (idx < piece_count total (i_piece_length i))%N -> (total + i_piece_length i <= 2 ^ 64)%N ->
  (idx < 2 ^ 32)%N -> (i_piece_length i < 2 ^ 32)%N ->
  cooperates (compute_info_hash sha1 i) some_size s opening rest -> blocks opening = [] ->
  lenN (blocks rest) = piece_count (N.min (i_piece_length i) (total - idx * i_piece_length i)) 16384 ->
  (20 * N.to_nat idx + 20 <= List.length (i_pieces i))%nat ->
  sha1 (List.concat (blocks rest)) = firstn 20 (skipn (20 * N.to_nat idx) (i_pieces i)) ->
  (List.length (opening ++ rest) <= fuel)%nat ->
  download sha1 p fuel (Some s) pid ep i idx = Ret (Ok (List.concat (blocks rest))).
Proof.
  intros sha1 p fuel s pid ep i idx total opening rest T. intros.
  rewrite (c67_piece sha1 p fuel s (quiet s) pid ep i idx (quiet_input s) T (quiet_third s)).
  eapply c48; eauto. eapply cooperates_same; [apply quiet_input|auto].
Qed.

Lemma c67_metadata_obtained : forall fuel s pid ep ih n opening rest l i, ~ third_write_fails s -> ModelTracker.parse_socket_addr ep <> None ->
  (0 < n)%N -> (n < 2 ^ 64)%N -> cooperates ih (this_size n) s opening rest ->
  metadata_blocks opening [] -> metadata_blocks rest l -> lenN l = piece_count n 16384 ->
  info_from_bytes (List.concat l) = Ret (Ok i) -> (List.length (opening ++ rest) <= fuel)%nat ->
  get_info fuel (Some s) pid ih ep = Ret (Ok i).
Proof.
  intros fuel s pid ep ih n opening rest l i T. intros.
  rewrite (c67_metadata fuel s (quiet s) pid ih ep (quiet_input s) T (quiet_third s)).
  eapply c49; eauto. eapply cooperates_same; [apply quiet_input|auto].
Qed.

(** ** Whole sessions end *)

Definition later (s z : stream) : Prop := exists n, quiet z = quiet (snd (read_messages n s)).
Lemma messages_app : forall n m s, snd (read_messages (n + m) s) = snd (read_messages m (snd (read_messages n s))).
Proof.
  induction n as [|n IH]; intros m s; cbn [Nat.add read_messages]; [auto|]. destruct (read_stream s) as [r s1].
  specialize (IH m s1). destruct (read_messages (n + m) s1), (read_messages n s1). cbn [snd] in *. exact IH.
Qed.
Lemma later_refl : forall s z, quiet z = quiet s -> later s z.
Proof. intros s z E. exists 0%nat. exact E. Qed.
Lemma messages_same : forall n s s', quiet s = quiet s' -> quiet (snd (read_messages n s)) = quiet (snd (read_messages n s')).
Proof. intros n s s' E. pose proof (messages_quiet n s) as A. rewrite E, messages_quiet in A. pose proof (f_equal snd A) as F. symmetry. exact F. Qed.
Lemma later_trans : forall a b c, later a b -> later b c -> later a c.
Proof.
  intros a b c [n N] [m M]. exists (n + m)%nat. rewrite messages_app, M. apply messages_same. exact N.
Qed.
Lemma later_read : forall s, later s (snd (read_stream s)).
Proof. intros s. exists 1%nat. cbn [read_messages]. destruct (read_stream s) as [r s1]. reflexivity. Qed.
Lemma meets_later : forall s z v, later s z -> fst (read_stream z) = Some v -> meets s v.
Proof.
  intros s z v [n E] F. exists n. rewrite <- F. pose proof (stream_quiet z) as A. rewrite E, stream_quiet in A. exact (f_equal fst A).
Qed.
Lemma read_later : forall x o x1, read_message x = Ret (o, x1) -> later (p_stream x) (p_stream x1) /\
  forall m, o = Some m -> exists body id len, fst (read_stream (p_stream x)) = Some (body, id, len) /\ new_raw body len id = Ret (Ok m).
Proof.
  intros x o x1 H. unfold read_message in H. pose proof (later_read (p_stream x)) as L.
  destruct (read_stream (p_stream x)) as [[[[body id] len]|] s]; cbn [fst snd] in *.
  - destruct (new_raw body len id) as [[m|e]| |] eqn:R; cbn [obind res_ok] in H; try discriminate; injection H as <- <-.
    + split; [exact L|]. intros m' [= <-]. eauto 6.
    + split; [exact L|]. discriminate.
  - injection H as <- <-. split; [exact L|]. discriminate.
Qed.
Lemma apply_stream : forall x m, p_stream (apply_message x m) = p_stream x.
Proof. intros x m. destruct (apply_message_fixed x m) as [-> _]. reflexivity. Qed.

(** The extensions of a peer were stated in a message that was met. *)
Definition stated (s : stream) (x : peer) : Prop :=
  exists m n e, meets_message s m /\ states_size m = Some (n, e) /\ p_extensions x = e /\ p_metadata_size x = n.
Definition sized (s : stream) (x : peer) : Prop := p_metadata_size x = 0%N \/ stated s x.
Lemma apply_stated : forall s x m, meets_message s m -> (stated s x -> stated s (apply_message x m)) /\ (sized s x -> sized s (apply_message x m)).
Proof.
  intros s x m M. assert (P : exists r, parsed r m) by (destruct M as (body & id & len & _ & R); exists (id, body), len; exact R).
  destruct P as [r P]. destruct (apply_fields r m x P) as (_ & _ & _ & E & _). unfold sized, stated.
  destruct (states_size m) as [[n e]|] eqn:S.
  - assert (H : exists m0 n0 e0, meets_message s m0 /\ states_size m0 = Some (n0, e0) /\ p_extensions (apply_message x m) = e0 /\ p_metadata_size (apply_message x m) = n0)
      by (exists m, n, e; repeat split; auto; congruence). auto.
  - assert (E1 : p_metadata_size (apply_message x m) = p_metadata_size x) by congruence.
    assert (E2 : p_extensions (apply_message x m) = p_extensions x) by congruence. rewrite E1, E2. auto.
Qed.

Lemma receives_later : forall s x ms y, receives x ms y -> later s (p_stream x) ->
  later s (p_stream y) /\ (sized s x -> sized s y).
Proof.
  intros s x ms y H. induction H as [x|x m x1 ms y R H IH|x x1 ms y R H IH]; intros L; [auto| |];
    destruct (read_later _ _ _ R) as [L1 P].
  - rewrite apply_stream in IH. destruct IH as [A B]; [eapply later_trans; eauto|]. split; [exact A|]. intros Z. apply B.
    destruct (P m eq_refl) as (body & id & len & E & Q).
    apply (apply_stated s x1 m); [exists body, id, len; split; [exact (meets_later _ _ _ L E)|auto]|].
    apply read_message_inv in R as (s1 & -> & _). exact Z.
  - destruct IH as [A B]; [eapply later_trans; eauto|]. split; [exact A|]. intros Z. apply B. apply read_message_inv in R as (s1 & -> & _). exact Z.
Qed.
Lemma exchange_later : forall s ask, (forall x n y, ask x n = Ret y -> quiet (p_stream y) = quiet (p_stream x) /\ p_extensions y = p_extensions x /\ p_metadata_size y = p_metadata_size x) ->
  forall x es y, exchange ask x es y -> later s (p_stream x) ->
  later s (p_stream y) /\ (stated s x -> stated s y) /\ (forall m, In (Got m) es -> meets_message s m).
Proof.
  intros s ask K x es y H. induction H as [x|x m x1 es y R H IH|x x1 es y R H IH|x n x1 es y R H IH]; intros L.
  - split; [auto|]. split; [auto|]. intros m [].
  - destruct (read_later _ _ _ R) as [L1 P].
    rewrite apply_stream in IH. destruct IH as (A & B & C); [eapply later_trans; eauto|]. destruct (P m eq_refl) as (body & id & len & E & Q).
    assert (M : meets_message s m) by (exists body, id, len; split; [exact (meets_later _ _ _ L E)|auto]).
    split; [exact A|]. split.
    + intros Z. apply B. apply (apply_stated s x1 m M). apply read_message_inv in R as (s1 & -> & _). exact Z.
    + intros m' [I|I]; [injection I as <-; auto|auto].
  - destruct (read_later _ _ _ R) as [L1 P]. destruct IH as (A & B & C); [eapply later_trans; eauto|]. split; [exact A|]. split.
    + intros Z. apply B. apply read_message_inv in R as (s1 & -> & _). exact Z.
    + intros m' [I|I]; [discriminate|auto].
  - destruct (K _ _ _ R) as (K1 & K2 & K3). destruct IH as (A & B & C); [eapply later_trans; [exact L|apply later_refl; exact K1]|]. split; [exact A|]. split.
    + intros Z. apply B. unfold stated in *. rewrite K2, K3. exact Z.
    + intros m' [I|I]; [discriminate|auto].
Qed.

Definition stuck_at (s : stream) {A} (o : outcome A) : Prop :=
  exists body id len, meets s (body, id, len) /\ ((o = Panic /\ unreadable body id) \/ (o = OutOfFuel /\ endless body id)).

Lemma raa_stuck : forall s x, later s (p_stream x) -> (exists y, read_and_apply x = Ret y) \/ stuck_at s (read_and_apply x).
Proof.
  intros s x L. unfold read_and_apply. destruct (read_stuck x) as [P H]. destruct (read_message x) as [[o x1]| |]; cbn [obind]; [eauto| |]; right.
  - destruct (P eq_refl) as (body & id & len & E & U). exists body, id, len. split; [exact (meets_later _ _ _ L E)|auto].
  - destruct (H eq_refl) as (body & id & len & E & U). exists body, id, len. split; [exact (meets_later _ _ _ L E)|auto].
Qed.
Lemma stuck_other : forall s A B (o : outcome A) (o' : outcome B), stuck_at s o -> (o = Panic -> o' = Panic) -> (o = OutOfFuel -> o' = OutOfFuel) -> stuck_at s o'.
Proof. intros s A B o o' (body & id & len & M & [[E U]|[E U]]) P H; exists body, id, len; split; auto. Qed.
Lemma rounds_stuck : forall s n x, later s (p_stream x) -> (exists r y, init_rounds n x = Ret (r, y)) \/ stuck_at s (init_rounds n x).
Proof.
  intros s. induction n as [|n IH]; intros x L; cbn [init_rounds]; [eauto|].
  destruct (raa_stuck s x L) as [[y E]|S].
  - rewrite E. cbn [obind]. destruct (is_ready y); [eauto|]. apply IH. apply read_apply_receives in E as [o R].
    eapply receives_later; eauto.
  - right. eapply stuck_other; [exact S| |]; intros ->; reflexivity.
Qed.
Lemma init_stuck : forall pid s ih, (exists r y, init_peer (peer_new pid s ih) = Ret (r, y)) \/ stuck_at s (init_peer (peer_new pid s ih)).
Proof.
  intros pid s ih. rewrite init_shape. cbn [peer_new p_info_hash p_id]. fold (peer_new pid s ih). rewrite send_new.
  set (b := message_as_bytes _). assert (L : later s (p_stream (peer_new pid (write_stream s b) ih))) by (apply later_refl; apply write_quiet).
  destruct (raa_stuck s _ L) as [[y E]|S].
  - rewrite E. cbn [obind]. destruct (is_active y); cbn [negb]; [|eauto].
    pose proof (meta_forget (send_message y new_interested)) as M. destruct (peer_send_metadata_handshake _) as [ok x3]. cbn [snd] in M.
    destruct ok; cbn [negb]; [|eauto]. apply rounds_stuck.
    apply read_apply_receives in E as [o R]. destruct (receives_later s _ _ _ R L) as [L' _].
    eapply later_trans; [exact L'|]. apply later_refl.
    assert (Q : quiet (p_stream x3) = quiet (p_stream (send_message y new_interested))) by (pose proof (f_equal p_stream M) as F; exact F).
    rewrite Q. apply write_quiet.
  - right. eapply stuck_other; [exact S| |]; intros ->; reflexivity.
Qed.
Lemma init_done : forall pid s ih y, init_peer (peer_new pid s ih) = Ret (Ok tt, y) -> later s (p_stream y) /\ stated s y.
Proof.
  intros pid s ih x. rewrite init_shape. cbn [peer_new p_info_hash p_id]. fold (peer_new pid s ih). rewrite send_new.
  set (b := message_as_bytes _). assert (L : later s (p_stream (peer_new pid (write_stream s b) ih))) by (apply later_refl; apply write_quiet).
  destruct (read_and_apply _) as [y| |] eqn:E; cbn [obind]; try discriminate. destruct (is_active y); cbn [negb]; [|discriminate].
  pose proof (meta_forget (send_message y new_interested)) as M. destruct (peer_send_metadata_handshake _) as [ok x3]. cbn [snd] in M.
  destruct ok; cbn [negb]; [|discriminate]. intros R3.
  apply read_apply_receives in E as [o R]. destruct (receives_later s _ _ _ R L) as [L' Z']. rewrite send_forget in M.
  assert (Q : quiet (p_stream x3) = quiet (p_stream y)) by (exact (f_equal p_stream M)).
  destruct (init_rounds_spec _ _ _ _ R3) as (ms & RR & _ & _ & [(_ & [_ SZ] & _)|(EE & _)]); [|discriminate].
  destruct (receives_later s _ _ _ RR) as [A B]; [eapply later_trans; [exact L'|apply later_refl; exact Q]|]. split; [exact A|].
  assert (Z : sized s x).
  { apply B. unfold sized, stated in *.
    assert (E1 : p_metadata_size x3 = p_metadata_size y) by exact (f_equal p_metadata_size M).
    assert (E2 : p_extensions x3 = p_extensions y) by exact (f_equal p_extensions M). rewrite E1, E2. apply Z'. left. reflexivity. }
  destruct Z as [Z|Z]; [tauto|exact Z].
Qed.

Lemma later_incoming : forall s z, later s z -> (List.length (incoming z) <= List.length (incoming s))%nat.
Proof.
  assert (Q : forall a b, quiet a = quiet b -> incoming a = incoming b).
  { intros a b E. change (incoming (quiet a) = incoming (quiet b)). congruence. }
  intros s z [n E]. rewrite (Q _ _ E). clear E z. revert s. induction n as [|n IH]; intros s; cbn [read_messages]; [cbn; lia|].
  destruct (stream_incoming s) as [I _]. destruct (read_stream s) as [r s1]. specialize (IH s1). destruct (read_messages n s1). cbn [snd] in *. lia.
Qed.

Lemma c67_piece_ends : forall sha1 p fuel s pid ep i idx total,
  parse_socket_addr ep <> None -> get_total_length p i = Ret total ->
  (0 < i_piece_length i)%N -> (idx < piece_count total (i_piece_length i))%N -> (total + i_piece_length i <= 2 ^ 64)%N ->
  (idx < 2 ^ 32)%N -> (i_piece_length i < 2 ^ 32)%N -> (20 * N.to_nat idx + 20 <= List.length (i_pieces i))%nat ->
  (11 * List.length (incoming s) + 11 < fuel)%nat ->
  (exists r, download sha1 p fuel (Some s) pid ep i idx = Ret r) \/
  (exists body id len, meets s (body, id, len) /\
     ((download sha1 p fuel (Some s) pid ep i idx = Panic /\ unreadable body id) \/
      (download sha1 p fuel (Some s) pid ep i idx = OutOfFuel /\ endless body id))).
Proof.
  intros sha1 p fuel s pid ep i idx total EP TL H1 H2 H3 H4 H5 H6 FU. unfold download, connect.
  destruct (parse_socket_addr ep); [|tauto]. cbn [obind orbind]. set (ih := compute_info_hash sha1 i).
  destruct (init_stuck pid s ih) as [(r & x & E)|S].
  - rewrite E. cbn [obind]. destruct r as [[]|e]; [|eauto]. rewrite TL. cbn [obind].
    destruct (init_done _ _ _ _ E) as [L _]. pose proof (later_incoming _ _ L) as LI.
    pose proof (block_forget p fuel (get_piece_length i) idx total x (forget x) ltac:(reflexivity)) as BF.
    destruct (c36_block p fuel (get_piece_length i) idx total (forget x)) as [(r & y & D)|(es & z & body & id & len & X & M & D)]; auto.
    { change (incoming (p_stream (forget x))) with (incoming (p_stream x)). lia. }
    + rewrite D in BF. destruct (download_block _ _ _ _ _ x) as [[d x2]| |]; cbn [blur] in BF; try discriminate. cbn [obind].
      destruct d as [piece|e]; [|eauto]. unfold verify_piece.
      assert (V : exists v, verify_piece sha1 i piece idx = Ret v).
      { unfold verify_piece. rewrite get_piece_spec. destruct (Nat.leb_spec (20 * N.to_nat idx + 20) (List.length (i_pieces i))); [|lia]. cbn [obind]. eauto. }
      destruct V as [v V]. unfold verify_piece in V. rewrite V. cbn [obind]. destruct v; cbn [negb]; eauto.
    + right. exists body, id, len. split.
      { destruct (exchange_later s (ask_block idx total (get_piece_length i))) with (x := forget x) (es := es) (y := z) as (A & _ & _); auto.
        - intros a n y Q. unfold ask_block in Q. injection Q as <-. repeat split.
        - eapply meets_later; eauto. }
      destruct D as [[D U]|[D U]]; rewrite D in BF; destruct (download_block _ _ _ _ _ x) as [[d x2]| |]; cbn [blur] in BF; try discriminate; cbn [obind]; auto.
  - right. eapply stuck_other; [exact S| |]; intros ->; reflexivity.
Qed.

Lemma c67_metadata_ends : forall fuel s pid ih ep, parse_socket_addr ep <> None -> (11 * List.length (incoming s) + 11 < fuel)%nat ->
  let o := get_info fuel (Some s) pid ih ep in
  (exists r, o = Ret r) \/
  (exists body id len, meets s (body, id, len) /\ ((o = Panic /\ unreadable body id) \/ (o = OutOfFuel /\ endless body id))) \/
  (o = Panic /\ exists m n e, meets_message s m /\ states_size m = Some (n, e) /\ hm_get e (s2b "ut_metadata") = None) \/
  (exists ds, Forall (fun d => exists m e, meets_message s m /\ msg_content m = CExtension e /\ ex_msg_type e = Some 1%N /\ ex_get_data e = d) ds /\
     ((o = Panic /\ decode (List.concat ds) = Panic) \/ (o = OutOfFuel /\ decode (List.concat ds) = OutOfFuel))).
Proof.
  intros fuel s pid ih ep EP FU. cbn zeta. unfold get_info, connect.
  destruct (parse_socket_addr ep); [|tauto]. cbn [obind orbind].
  destruct (init_stuck pid s ih) as [(r & x & E)|S].
  2: { right; left. eapply stuck_other; [exact S| |]; intros ->; reflexivity. }
  rewrite E. cbn [obind]. destruct r as [[]|e]; [|eauto].
  destruct (init_done _ _ _ _ E) as [L ST]. pose proof (later_incoming _ _ L) as LI.
  pose proof (info_forget fuel x (forget x) ltac:(reflexivity)) as BF.
  assert (SM : (p_metadata_size x < 2 ^ 64)%N).
  { destruct ST as (m & n & e & (body & id & len & _ & R) & SS & _ & <-). apply (parsed_size (id, body) m _ e); [exists len; exact R|auto]. }
  assert (NZ : p_metadata_size x <> 0%N).
  { rewrite init_shape in E. apply obind_ret in E as (x1 & _ & E). destruct (negb (is_active x1)); [discriminate|].
    destruct (peer_send_metadata_handshake _) as [ok x3]. destruct (negb ok); [discriminate|].
    destruct (init_rounds_spec _ _ _ _ E) as (ms & _ & _ & _ & [(_ & [_ Z] & _)|(Z & _)]); [auto|discriminate]. }
  assert (K : forall a n y, ask_metadata a n = Ret y -> quiet (p_stream y) = quiet (p_stream a) /\ p_extensions y = p_extensions a /\ p_metadata_size y = p_metadata_size a).
  { intros a n y Q. unfold ask_metadata in Q. destruct (hm_get _ _); [|discriminate]. injection Q as <-. repeat split. }
  destruct (c36_info fuel (forget x)) as [(r & y & D)|(es & z & X & D)]; auto.
  { change (incoming (p_stream (forget x))) with (incoming (p_stream x)). lia. }
  - rewrite D in BF. destruct (download_info fuel x) as [[d x2]| |]; cbn [blur] in BF; try discriminate. cbn [obind].
    apply ret_pair in BF as [-> _]. destruct r as [d|e]; [|eauto].
    destruct (c35_info fuel (forget x) _ _ ltac:(reflexivity) NZ SM D) as (es & X & _ & _ & OK & _). destruct (OK d eq_refl) as (-> & _ & _).
    destruct (exchange_later s ask_metadata K (forget x) es y X L) as (_ & _ & G).
    set (ms := wanted is_extension_data_message es).
    assert (IN : forall m, In m ms -> In (Got m) es /\ is_extension_data_message m = true).
    { intros m I. unfold ms, wanted in I. apply in_flat_map in I as (ev & I & J). destruct ev as [m'| |]; try contradiction.
      destruct (is_extension_data_message m') eqn:F; [|contradiction]. destruct J as [<-|[]]. auto. }
    assert (FM : flat_map get_content_data ms = List.concat (map get_content_data ms)) by apply flat_map_concat_map. rewrite FM.
    unfold info_from_bytes.
    destruct (decode (List.concat (map get_content_data ms))) as [[[v n]|e]| |] eqn:DD; cbn [obind]; [left; destruct (info_from_metainfo v); eauto|left; eauto| |]; right; right; right;
      exists (map get_content_data ms); (split; [|auto]); apply Forall_forall; intros d I; apply in_map_iff in I as (m & <- & I);
      destruct (IN m I) as [I1 I2]; unfold is_extension_data_message in I2; unfold get_content_data; destruct (msg_content m) as [|e| | | |] eqn:C; try discriminate;
      exists m, e; (split; [auto|]); (split; [auto|]); (split; [|reflexivity]); unfold ex_is_data in I2;
      destruct (ex_msg_type e) as [k|]; try discriminate; apply N.eqb_eq in I2; congruence.
  - destruct (exchange_later s ask_metadata K (forget x) es z X L) as (A & B & _).
    destruct D as [[D U]|(body & id & len & M & D)].
    + right; right; left. rewrite D in BF. destruct (download_info fuel x) as [[d x2]| |]; cbn [blur] in BF; try discriminate. cbn [obind].
      split; [reflexivity|]. destruct (B ST) as (m & n & e & MM & SS & <- & _). eauto 6.
    + right; left. exists body, id, len. split; [exact (meets_later _ _ _ A M)|].
      destruct D as [[D U]|[D U]]; rewrite D in BF; destruct (download_info fuel x) as [[d x2]| |]; cbn [blur] in BF; try discriminate; cbn [obind]; auto.
Qed.
