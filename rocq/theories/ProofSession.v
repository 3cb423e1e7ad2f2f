(** ProofSession: proofs for properties C47-C50 *)
From Verif Require Import Base Utf8 ModelBencode ModelMessages ModelTorrent ModelTracker ModelStream ModelPeer
  SpecBencode SpecTorrent SpecMessages SpecStream SpecWriter SpecPieces SpecPeer SpecSession
  ProofBase ProofBencode ProofBencode2 ProofTorrent ProofMessages ProofPieces ProofStream ProofPeer.

(** ** C47: extension messages *)

Lemma ext_map_get : forall (es : list (bytes * bval)) acc k, NoDup (map fst es) ->
  hm_get (fold_left (fun acc (kv : bytes * metainfo) =>
    match get_integer_content (snd kv) with Ok v => hm_insert acc (fst kv) (as_u8 v) | Err _ => acc end)
    (map (fun kv => (fst kv, as_metainfo (snd kv))) es) acc) k
  = match int_at es k with Some n => Some (n mod 256)%N | None => hm_get acc k end.
Proof.
  induction es as [|[k0 v0] es IH]; intros acc k ND; [reflexivity|]. inversion ND as [|? ? NI ND']; subst.
  cbn [map fold_left fst snd]. rewrite IH by auto.
  assert (LB : last_binding ((k0, v0) :: es) k = match last_binding es k with Some v => Some v | None => if bytes_eqb k k0 then Some v0 else None end).
  { unfold last_binding. cbn [rev]. rewrite find_app'. destruct (find _ (rev es)); [reflexivity|]. cbn [find fst].
    destruct (list_eq_dec N.eq_dec k0 k) as [->|N]; [rewrite bytes_eqb_refl; reflexivity|].
    replace (bytes_eqb k k0) with false; [reflexivity|]. symmetry. apply bytes_eqb_neq. congruence. }
  unfold int_at. rewrite LB.
  destruct (last_binding es k) as [v|] eqn:E.
  - assert (k <> k0).
    { intros ->. apply NI. unfold last_binding in E. destruct (find _ (rev es)) as [[k1 v1]|] eqn:F; [|discriminate].
      apply find_some in F as [F1 F2]. cbn [fst] in F2. destruct (list_eq_dec N.eq_dec k1 k0) as [->|]; [|discriminate].
      apply in_rev in F1. apply (in_map fst) in F1. exact F1. }
    destruct v as [n| | |]; try reflexivity; destruct v0; cbn [as_metainfo get_integer_content]; try reflexivity;
      rewrite hm_get_insert; replace (bytes_eqb k k0) with false by (symmetry; apply bytes_eqb_neq; auto); reflexivity.
  - destruct (bytes_eqb k k0) eqn:B; destruct v0; cbn [as_metainfo get_integer_content]; try reflexivity.
    + rewrite hm_get_insert, B. reflexivity.
    + rewrite hm_get_insert, B. reflexivity.
Qed.

Lemma c47 : forall id d data, decodable text (BDict d) -> distinct_keys (BDict d) ->
  exists e, extension_from_bytes (id :: benc (BDict d) ++ data) = Ret (Ok e) /\ ex_id e = id /\ ex_get_data e = data /\
    ex_msg_type e = int_at d (s2b "msg_type") /\ ex_get_metadata_size e = int_at d (s2b "metadata_size") /\
    ex_piece e = int_at d (s2b "piece") /\
    (forall k, hm_get (ex_get_extensions e) k = option_map (fun n => n mod 256)%N (int_at (dict_at d (s2b "m")) k)).
Proof.
  intros id d data D K. pose proof (c01 _ data D K) as E.
  unfold extension_from_bytes. change (slice_from (id :: benc (BDict d) ++ data) 1) with (Ret (benc (BDict d) ++ data)). cbn [obind].
  rewrite E. cbn [obind index nth_error].
  assert (SD : slice_from (id :: benc (BDict d) ++ data) (List.length (benc (BDict d)) + 1) = Ret data).
  { unfold slice_from. replace (List.length (benc (BDict d)) + 1 <=? List.length (id :: benc (BDict d) ++ data))%nat with true
      by (symmetry; apply Nat.leb_le; cbn [List.length]; rewrite app_length; lia).
    replace (List.length (benc (BDict d)) + 1)%nat with (S (List.length (benc (BDict d)))) by lia. cbn [skipn]. rewrite skipn_app_len. reflexivity. }
  rewrite SD. cbn [obind]. eexists. split; [reflexivity|].
  inversion K as [| | |d' ND KD]; subst.
  assert (GI : forall k, res_ok (get_integer_from_dict (as_metainfo (BDict d)) k) = int_at d k).
  { intros k. unfold get_integer_from_dict, int_at. cbn [as_metainfo get_dict_content rbind]. rewrite hm_get_map by auto.
    destruct (last_binding d k) as [[]|]; reflexivity. }
  unfold ex_get_data, ex_get_metadata_size, ex_get_extensions.
  cbn [ex_id ex_data ex_msg_type ex_metadata_size ex_piece ex_extensions]. rewrite !GI. repeat split; auto.
  intros k. unfold get_value_from_dict, dict_at. cbn [as_metainfo get_dict_content rbind]. rewrite hm_get_map by auto.
  destruct (last_binding d (s2b "m")) as [v|] eqn:LB; cbn [option_map res_ok]; [|reflexivity].
  destruct v as [| | |m]; cbn [as_metainfo get_dict_content]; try reflexivity.
  unfold build_extensions_map. rewrite ext_map_get.
  - cbn [hm_get]. destruct (int_at m k); reflexivity.
  - unfold last_binding in LB. destruct (find _ (rev d)) as [[k1 v1]|] eqn:F; [|discriminate]. cbn in LB. injection LB as ->.
    apply find_some in F as [F _]. apply in_rev in F. rewrite Forall_forall in KD. specialize (KD _ F). cbn in KD. inversion KD; auto.
Qed.

(** ** What is read does not depend on what is written *)

Definition out (s : stream) (sent : bytes) (w : list (option nat)) : stream :=
  {| st_avail := st_avail s; st_closed := st_closed s; st_sched := st_sched s; st_wsched := w; st_sent := sent |}.

Lemma env_out : forall s o w, env_step (out s o w) = (fst (env_step s), out (snd (env_step s)) o w).
Proof. intros s o w. unfold env_step. cbn [out st_sched]. destruct (st_sched s) as [|[c| |] t]; reflexivity. Qed.
Lemma peek_out : forall n s o w, peek n (out s o w) = (fst (peek n s), out (snd (peek n s)) o w).
Proof.
  intros n s o w. unfold peek. rewrite env_out. destruct (env_step s) as [b s1]. cbn [fst snd]. destruct b; [reflexivity|].
  cbn [out st_avail st_closed]. destruct (st_avail s1); reflexivity.
Qed.
Lemma read_out : forall n s o w, read n (out s o w) = (fst (read n s), out (snd (read n s)) o w).
Proof.
  intros n s o w. unfold read. rewrite env_out. destruct (env_step s) as [b s1]. cbn [fst snd]. destruct b; [reflexivity|].
  cbn [out st_avail st_closed]. destruct (st_avail s1); reflexivity.
Qed.
Lemma peek_and_read_out : forall n s o w, peek_and_read n (out s o w) = (fst (peek_and_read n s), out (snd (peek_and_read n s)) o w).
Proof.
  intros n s o w. unfold peek_and_read. rewrite peek_out. destruct (peek n s) as [pk s1]. cbn [fst snd].
  destruct (_ =? n)%N; [|reflexivity]. rewrite read_out. destruct (read n s1) as [rd s2]. cbn [fst snd].
  destruct (lenN _ =? n)%N; reflexivity.
Qed.
Lemma body_out : forall t n s o w, read_body t n (out s o w) = (fst (read_body t n s), out (snd (read_body t n s)) o w).
Proof.
  induction t as [|t IH]; intros n s o w; cbn [read_body]; [reflexivity|]. rewrite peek_and_read_out.
  destruct (peek_and_read n s) as [r s1]. cbn [fst snd]. destruct r; [reflexivity|]. apply IH.
Qed.
Lemma frame_out : forall s o w, read_frame (out s o w) = (fst (read_frame s), out (snd (read_frame s)) o w).
Proof.
  intros s o w. unfold read_frame. rewrite read_out. destruct (read 4 s) as [r s1]. cbn [fst snd]. destruct r as [got|]; [|reflexivity].
  rewrite read_out. destruct (read 1 s1) as [r s2]. cbn [fst snd]. destruct r as [got1|]; [|reflexivity].
  destruct (_ =? 0)%N; [reflexivity|]. rewrite body_out. destruct (read_body 39 _ s2) as [r s3]. cbn [fst snd]. destruct r; reflexivity.
Qed.
Lemma stream_out : forall s o w, read_stream (out s o w) = (fst (read_stream s), out (snd (read_stream s)) o w).
Proof.
  intros s o w. unfold read_stream, has_messages. rewrite peek_out. destruct (peek 1 s) as [r s1]. cbn [fst snd].
  destruct (negb _); [reflexivity|]. rewrite peek_out. destruct (peek 68 s1) as [r2 s2]. cbn [fst snd].
  destruct r2 as [buffer|]; [|apply frame_out]. destruct (_ && _); [|apply frame_out].
  rewrite read_out. destruct (read 68 s2) as [r3 s3]. cbn [fst snd]. destruct r3; reflexivity.
Qed.

(** ** Reading what is delivered *)

(** The stream of [x] behaves like [s] as far as reading goes. *)
Definition reads_like (x : peer) (s : stream) : Prop := exists o w, p_stream x = out s o w.
Definition reading_of (r : option (bytes * N * N)) (o : option message) : Prop :=
  match r with
  | None => o = None
  | Some (body, id, len) => new_raw body len id = Ret (match o with Some m => Ok m | None => Err tt end)
  end.

Lemma out_self : forall s, out s (st_sent s) (st_wsched s) = s.
Proof. destruct s; reflexivity. Qed.
Lemma out_out : forall s o w o' w', out (out s o w) o' w' = out s o' w'.
Proof. reflexivity. Qed.

(** One attempt. *)
Lemma attempt : forall x s r o, reads_like x s -> fst (read_stream s) = r -> reading_of r o ->
  exists x1, read_message x = Ret (o, x1) /\ x1 = with_stream x (p_stream x1) /\ reads_like x1 (snd (read_stream s)) /\
    st_wsched (p_stream x1) = st_wsched (p_stream x).
Proof.
  intros x s r o (so & w & E) F RO. unfold read_message. rewrite E, stream_out, F. destruct r as [[[body id] len]|].
  - cbn [reading_of] in RO. rewrite RO. cbn [obind]. eexists. split; [destruct o; reflexivity|]. cbn. split; [reflexivity|].
    split; [exists so, w; reflexivity|reflexivity].
  - cbn [reading_of] in RO. subst o. eexists. split; [reflexivity|]. cbn. split; [reflexivity|].
    split; [exists so, w; reflexivity|reflexivity].
Qed.

Lemma apply_reads_like : forall x m s, reads_like x s -> reads_like (apply_message x m) s.
Proof. intros x m s (o & w & E). exists o, w. rewrite (proj1 (apply_message_fixed x m)). exact E. Qed.
Lemma send_reads_like : forall x b s, reads_like x s -> reads_like (after_sending x b) s.
Proof. intros x b s (o & w & E). unfold after_sending. rewrite E. exists (o ++ b), w. reflexivity. Qed.

Lemma delivers_cons : forall s o c, delivers s (o :: c) ->
  option_map (fun v => match v with (body, id, _) => (id, body) end) (fst (read_stream s)) = o /\ delivers (snd (read_stream s)) c.
Proof.
  intros s o c D. unfold delivers in *. cbn [List.length read_messages] in D. destruct (read_stream s) as [r s1].
  cbn [fst snd]. destruct (read_messages (List.length c) s1) as [rs s2]. cbn [fst snd map] in *. injection D as D1 D2. split; [exact D1|exact D2].
Qed.

(** A readable message parses, or is dropped. *)
Lemma readable : forall r len, ~ unreadable (snd r) (fst r) -> ~ endless (snd r) (fst r) ->
  exists o, reading_of (Some (snd r, fst r, len)) o /\ (forall m, o = Some m -> parsed r m).
Proof.
  intros [id body] len U H. cbn [fst snd] in *. destruct (c17 body len id) as (CP & CH & _).
  destruct (new_raw body len id) as [[m|[]]| |] eqn:E.
  - exists (Some m). split; [exact E|]. intros m' [= <-]. exists len. exact E.
  - exists None. split; [exact E|]. discriminate.
  - exfalso. apply U. apply CP. reflexivity.
  - exfalso. apply H. apply CH. reflexivity.
Qed.

(** Parsing does not depend on the length. *)
Lemma parsed_length : forall body id len len' m, new_raw body len id = Ret (Ok m) ->
  new_raw body len' id = Ret (Ok {| msg_id := msg_id m; msg_length := len'; msg_content := msg_content m |}).
Proof.
  intros body id len len' m. unfold new_raw. destruct (id =? 2)%N eqn:E2; [intros [= <-]; reflexivity|].
  destruct (id =? 5)%N; [intros [= <-]; reflexivity|]. destruct (_ || _).
  - destruct (request_from_bytes body); cbn [obind]; try discriminate. intros [= <-]. reflexivity.
  - destruct (id =? 20)%N.
    + destruct (extension_from_bytes body) as [[|]| |]; cbn [orbind]; try discriminate. intros [= <-]. reflexivity.
    + destruct (id =? 19)%N; [|intros [= <-]; reflexivity].
      destruct (handshake_from_bytes body); cbn [obind]; try discriminate. intros [= <-]. reflexivity.
Qed.
Lemma parsed_unique : forall r m m', parsed r m -> parsed r m' -> msg_content m = msg_content m' /\ msg_id m = msg_id m'.
Proof.
  intros [id body] m m' (l & H) (l' & H'). cbn [fst snd] in *. apply (parsed_length _ _ _ l') in H. rewrite H in H'.
  injection H' as <-. split; reflexivity.
Qed.
Lemma parsed_id : forall r m, parsed r m -> msg_id m = fst r.
Proof.
  intros [id body] m (l & H). cbn [fst snd] in *. revert H. unfold new_raw. destruct (id =? 2)%N; [intros [= <-]; reflexivity|].
  destruct (id =? 5)%N; [intros [= <-]; reflexivity|]. destruct (_ || _).
  - destruct (request_from_bytes body); cbn [obind]; try discriminate. intros [= <-]. reflexivity.
  - destruct (id =? 20)%N.
    + destruct (extension_from_bytes body) as [[|]| |]; cbn [orbind]; try discriminate. intros [= <-]. reflexivity.
    + destruct (id =? 19)%N; [|intros [= <-]; reflexivity].
      destruct (handshake_from_bytes body); cbn [obind]; try discriminate. intros [= <-]. reflexivity.
Qed.

(** ** Initialisation with a peer that cooperates *)

Section Cooperation.
  Variable size : N -> hmap N -> Prop.
  Hypothesis size_nonzero : forall n e, size n e -> n <> 0%N.

  Definition sized (x : peer) : Prop := size (p_metadata_size x) (p_extensions x).

  (** One attempt that brings a well-behaved message or nothing. *)
  Lemma behaved_attempt : forall x s o c, reads_like x s -> delivers s (o :: c) ->
    (forall r, o = Some r -> well_behaved size r) -> (p_metadata_size x = 0%N \/ sized x) ->
    exists om x1, read_message x = Ret (om, x1) /\
      let x2 := match om with Some m => apply_message x1 m | None => x1 end in
      reads_like x2 (snd (read_stream s)) /\ delivers (snd (read_stream s)) c /\
      st_wsched (p_stream x2) = st_wsched (p_stream x) /\ st_sent (p_stream x2) = st_sent (p_stream x) /\
      (p_metadata_size x2 = 0%N \/ sized x2) /\ (sized x -> sized x2) /\
      (p_choked x = false -> p_choked x2 = false) /\
      (forall body, o = Some (1%N, body) -> p_choked x2 = false) /\
      (forall r m n e, o = Some r -> parsed r m -> states_size m = Some (n, e) -> sized x2) /\
      (o = None -> om = None) /\
      (forall r, o = Some r -> exists m, om = Some m /\ parsed r m).
  Proof.
    intros x s o c RL D WB INV. destruct (delivers_cons _ _ _ D) as [E D']. clear D.
    destruct (fst (read_stream s)) as [[[body id] len]|] eqn:F; cbn [option_map] in E; subst o.
    - destruct (WB _ eq_refl) as (N0 & (m & l0 & P0) & SZ). cbn [fst snd] in *.
      apply (parsed_length _ _ _ len) in P0. set (m0 := {| msg_id := msg_id m |}) in *. clearbody m0. clear m. rename m0 into m.
      destruct (attempt x s _ (Some m) RL F P0) as (x1 & RM & W1 & RL1 & WS). exists (Some m), x1. split; [exact RM|]. cbn zeta.
      assert (SE : st_sent (p_stream x1) = st_sent (p_stream x)).
      { destruct (read_message_inv _ _ _ RM) as (s1 & -> & _ & [SO _] & _). exact SO. }
      assert (P : parsed (id, body) m) by (exists len; exact P0). destruct (apply_fields (id, body) m x1 P) as (AC & _ & _ & AS & ST & _ & _).
        cbn [fst snd] in *.
        assert (X1 : p_choked x1 = p_choked x /\ p_metadata_size x1 = p_metadata_size x /\ p_extensions x1 = p_extensions x)
          by (rewrite W1; repeat split; reflexivity).
        destruct X1 as (XC & XM & XE).
        split; [apply apply_reads_like; auto|]. split; [auto|]. split; [rewrite ST; auto|]. split; [rewrite ST; auto|].
        assert (AS' : states_size m = None -> p_metadata_size (apply_message x1 m) = p_metadata_size x /\ p_extensions (apply_message x1 m) = p_extensions x).
        { intros Z. rewrite Z in AS. injection AS as -> ->. auto. }
        assert (AS2 : forall n e, states_size m = Some (n, e) -> sized (apply_message x1 m)).
        { intros n e Z. unfold sized. rewrite Z in AS. injection AS as -> ->. eapply SZ; eauto. }
        assert (AS3 : sized x -> sized (apply_message x1 m)).
        { intros Q. destruct (states_size m) as [[n e]|] eqn:Z; [eapply AS2; eauto|]. destruct (AS' eq_refl) as [Z1 Z2].
          unfold sized. rewrite Z1, Z2. exact Q. }
        split; [destruct (states_size m) as [[n e]|] eqn:Z; [right; eapply AS2; eauto|destruct (AS' eq_refl) as [Z1 Z2]; destruct INV; [left; congruence|auto]]|].
        split; [auto|].
        split.
        { intros Q. rewrite AC. unfold choke_or_unchoke. cbn [fst]. destruct (N.eqb_spec id 0); [congruence|]. cbn [orb].
          destruct (id =? 1)%N; congruence. }
        split.
        { intros b [= -> ->]. rewrite AC. reflexivity. }
        split.
        { intros r m' n e [= <-] P' Z. destruct (parsed_unique _ _ _ P P') as [EC _].
          assert (Z' : states_size m = Some (n, e)) by (unfold states_size in *; rewrite EC; exact Z). eapply AS2; eauto. }
        split; [discriminate|]. intros r [= <-]. exists m. auto.
    - destruct (attempt x s None None RL F eq_refl) as (x1 & RM & W1 & RL1 & WS). exists None, x1. split; [exact RM|]. cbn zeta.
      assert (SE : st_sent (p_stream x1) = st_sent (p_stream x)).
      { destruct (read_message_inv _ _ _ RM) as (s1 & -> & _ & [SO _] & _). exact SO. }
      assert (X : p_choked x1 = p_choked x /\ p_metadata_size x1 = p_metadata_size x /\ p_extensions x1 = p_extensions x)
        by (rewrite W1; repeat split; reflexivity).
      destruct X as (XC & XM & XE). unfold sized. rewrite XM, XE, XC.
      repeat split; auto; try discriminate.
  Qed.

  Lemma init_rounds_ok : forall opening n s x rest, reads_like x s -> delivers s (opening ++ rest) ->
    (List.length opening <= n)%nat -> (forall r, In (Some r) opening -> well_behaved size r) ->
    (p_metadata_size x = 0%N \/ sized x) -> ~ ready x ->
    (p_choked x = false \/ exists body, In (Some (1%N, body)) opening) ->
    (sized x \/ exists r m k e, In (Some r) opening /\ parsed r m /\ states_size m = Some (k, e)) ->
    exists pre post y s', init_rounds n x = Ret (Ok tt, y) /\ opening = pre ++ post /\ reads_like y s' /\ delivers s' (post ++ rest) /\
      p_choked y = false /\ sized y /\ st_wsched (p_stream y) = st_wsched (p_stream x) /\ st_sent (p_stream y) = st_sent (p_stream x).
  Proof.
    induction opening as [|o t IH]; intros n s x rest RL D L WB INV NR UC SZ.
    - exfalso. apply NR. destruct UC as [UC|(b & [])]. destruct SZ as [SZ|(r & m & k & e & [] & _)].
      split; [auto|]. eapply size_nonzero; eauto.
    - destruct n as [|n]; [cbn in L; lia|]. cbn [init_rounds]. cbn [app] in D.
      destruct (behaved_attempt x s o (t ++ rest) RL D) as (om & x1 & RM & RL2 & D2 & WS & SE & INV2 & SZ2 & UC2 & UC3 & SZ3 & _);
        [intros r ->; apply WB; left; auto|auto|]. cbn zeta in *.
      unfold read_and_apply. rewrite RM. cbn [obind]. set (x2 := match om with Some m => apply_message x1 m | None => x1 end) in *.
      destruct (is_ready x2) eqn:RD.
      + apply is_ready_spec in RD as [R1 R2]. exists [o], t, x2, (snd (read_stream s)).
        destruct INV2 as [Z|Z]; [congruence|]. repeat split; auto.
      + assert (NR2 : ~ ready x2) by (intros X; apply is_ready_spec in X; congruence).
        destruct (IH n _ x2 rest RL2 D2) as (pre & post & y & s' & E1 & E2 & E3 & E4 & E5 & E6 & E7 & E8); auto.
        * cbn in L. lia.
        * intros r H. apply WB. right. auto.
        * destruct UC as [UC|(b & [->|H])]; [left; auto|left; eapply UC3; eauto|right; eauto].
        * destruct SZ as [SZ|(r & m & k & e & [->|H] & P & S)]; [left; auto|left; eapply SZ3; eauto|right; eauto 10].
        * exists (o :: pre), post, y, s'. split; [exact E1|]. split; [rewrite E2; reflexivity|]. rewrite <- WS, <- SE. auto 10.
  Qed.

  Lemma init_ok : forall ih pid s opening rest, st_wsched s = [] -> cooperates ih size s opening rest ->
    exists pre post y s', init_peer (peer_new pid s ih) = Ret (Ok tt, y) /\ opening = pre ++ post /\
      reads_like y s' /\ delivers s' (post ++ rest) /\ p_choked y = false /\ sized y /\ st_wsched (p_stream y) = [] /\
      st_sent (p_stream y) = st_sent s ++ handshake_layout ih pid ++ frame 2 [] ++ metadata_handshake_bytes.
  Proof.
    intros ih pid s opening rest W [(h & D & L & HH) SO UC ST WB TA].
    unfold init_peer. cbn [peer_new p_info_hash p_id]. fold (peer_new pid s ih). set (x := peer_new pid s ih).
    rewrite (send_ok x) by exact W. destruct (c14_new ih pid) as [HL _]. rewrite HL.
    set (x0 := after_sending x (handshake_layout ih pid)).
    assert (RL : reads_like x0 s) by (apply send_reads_like; exists (st_sent s), (st_wsched s); rewrite out_self; reflexivity).
    destruct (delivers_cons _ _ _ D) as [E D']. destruct (fst (read_stream s)) as [[[body id] len]|] eqn:F; [|discriminate].
    cbn [option_map] in E. injection E as -> ->.
    destruct (c14_parse h ltac:(lia)) as (hm & EH & IH & _).
    set (m := {| msg_id := 19%N; msg_length := len; msg_content := CHandshake hm |}).
    assert (NR : new_raw h len 19 = Ret (Ok m)) by (unfold new_raw; cbn [N.eqb Pos.eqb orb]; rewrite EH; reflexivity).
    destruct (attempt x0 s _ (Some m) RL F NR) as (x1 & RM & W1 & RL1 & WS).
    assert (SE : st_sent (p_stream x1) = st_sent s ++ handshake_layout ih pid).
    { destruct (read_message_inv _ _ _ RM) as (s1 & -> & _ & [SO' _] & _). exact SO'. }
    unfold read_and_apply. rewrite RM. cbn [obind].
    set (x2 := apply_message x1 m).
    assert (P : parsed (19%N, h) m) by (exists len; exact NR).
    destruct (apply_fields (19%N, h) m x1 P) as (AC & _ & AA & AS & AST & _ & _). fold x2 in AC, AA, AS, AST. cbn [fst snd] in AA.
    assert (X1 : p_info_hash x1 = ih /\ p_choked x1 = true /\ p_metadata_size x1 = 0%N) by (rewrite W1; repeat split; reflexivity).
    destruct X1 as (X1 & X2 & X3).
    assert (ACT : is_active x2 = true).
    { unfold is_active. rewrite AA. unfold handshake_id. cbn [fst N.eqb Pos.eqb]. rewrite X1, HH. apply bytes_eqb_refl. }
    rewrite ACT. cbn [negb].
    assert (W2 : st_wsched (p_stream x2) = []) by (rewrite AST, WS; exact W).
    rewrite (send_ok x2) by auto. rewrite c16_interested.
    unfold peer_send_metadata_handshake, send_metadata_handshake_request, write_all.
    cbn [after_sending with_stream p_stream st_wsched]. rewrite W2. cbn [negb tl].
    match goal with |- exists pre post y s', init_rounds 10 ?z = _ /\ _ => assert (Z : z = after_sending x2 (frame 2 [] ++ metadata_handshake_bytes)) end.
    { unfold after_sending, with_stream. cbn [p_stream p_id p_choked p_active p_bitfield p_metadata_size p_extensions p_info_hash
        st_avail st_closed st_sched st_wsched st_sent]. rewrite W2, app_assoc. reflexivity. }
    rewrite Z. clear Z. set (x3 := after_sending x2 (frame 2 [] ++ metadata_handshake_bytes)).
    assert (RL3 : reads_like x3 (snd (read_stream s))) by (apply send_reads_like, apply_reads_like; auto).
    assert (C3 : p_choked x3 = true) by (change (p_choked x3) with (p_choked x2); rewrite AC; cbn; exact X2).
    assert (M3 : p_metadata_size x3 = 0%N).
    { change (p_metadata_size x3) with (p_metadata_size x2). change (p_metadata_size x2) with (p_metadata_size x1). exact X3. }
    destruct (init_rounds_ok opening 10 _ x3 rest RL3 D' SO) as (pre & post & y & s' & E1 & E2 & E3 & E4 & E5 & E6 & E7 & E8); auto.
    - intros r H. apply WB. apply in_or_app. auto.
    - intros [R _]. congruence.
    - exists pre, post, y, s'. split; [exact E1|]. split; [auto|]. split; [auto|]. split; [auto|]. split; [auto|]. split; [auto|].
      split; [rewrite E7; exact W2|]. rewrite E8. cbn [x3 after_sending with_stream p_stream st_sent]. rewrite AST, SE, <- app_assoc. reflexivity.
  Qed.

  (** ** The exchange of blocks with a peer that cooperates *)

  Variable filter : message -> bool.
  Variable next : peer -> N -> outcome peer.
  Variable cap : N.
  Hypothesis filter_content : forall m m', msg_content m = msg_content m' -> filter m = filter m'.
  Hypothesis next_ok : forall x n, st_wsched (p_stream x) = [] -> sized x -> (n < cap)%N -> exists b, next x n = Ret (after_sending x b).

  Inductive picks : list (option raw) -> list bytes -> Prop :=
  | picks_nil : picks [] []
  | picks_silence c l : picks c l -> picks (None :: c) l
  | picks_block r m c l : parsed r m -> filter m = true -> picks c l -> picks (Some r :: c) (get_content_data m :: l)
  | picks_other r c l : (forall m, parsed r m -> filter m = false) -> picks c l -> picks (Some r :: c) l.

  Definition quiet (idle : N) (c : list (option raw)) : Prop :=
    (forall j b, c = repeat None j ++ b -> N.of_nat j + idle <= 10)%N /\ talkative 10 c.

  Lemma content_data : forall m m', msg_content m = msg_content m' -> get_content_data m = get_content_data m'.
  Proof. intros m m' E. unfold get_content_data. rewrite E. reflexivity. Qed.

  Lemma quiet_some : forall idle r c, quiet idle (Some r :: c) -> quiet 1 c.
  Proof.
    intros idle r c [_ T]. split.
    - intros j b E. specialize (T [Some r] b j). cbn [app] in T. rewrite E in T. specialize (T eq_refl). lia.
    - intros a b j E. apply (T (Some r :: a) b j). rewrite E. reflexivity.
  Qed.
  Lemma quiet_none : forall idle c, quiet idle (None :: c) -> quiet (idle + 1) c /\ (idle + 1 <= 10)%N.
  Proof.
    intros idle c [Q T]. split; [split|].
    - intros j b E. specialize (Q (S j) b). cbn [repeat app] in Q. rewrite E in Q. specialize (Q eq_refl). lia.
    - intros a b j E. apply (T (None :: a) b j). rewrite E. reflexivity.
    - specialize (Q 1%nat c eq_refl). lia.
  Qed.

  Lemma execute_ok : forall c l, picks c l -> forall fuel s x b idle, reads_like x s -> delivers s c ->
    st_wsched (p_stream x) = [] -> sized x -> p_choked x = false -> (forall r, In (Some r) c -> well_behaved size r) ->
    quiet idle c -> mb_capacity b = cap -> (lenN (mb_buffer b) + lenN l = cap)%N -> l <> [] -> (List.length c <= fuel)%nat ->
    exists y, execute fuel filter next x b idle = Ret (Ok (flat_map get_content_data (mb_buffer b) ++ List.concat l), y).
  Proof.
    induction 1 as [|c l PK IH|r m c l P FT PK IH|r c l NF PK IH]; intros fuel s x b idle RL D W SZ CH WB Q EC EL NL LF.
    - congruence.
    - destruct fuel as [|fuel]; [cbn in LF; lia|]. cbn [execute].
      destruct (behaved_attempt x s None c RL D) as (om & x1 & RM & RL2 & D2 & WS & SE & INV2 & SZ2 & UC2 & UC3 & SZ3 & NO & _);
        [discriminate|auto|]. cbn zeta in *. rewrite (NO eq_refl) in *. rewrite RM. cbn [obind].
      assert (LB : (lenN (mb_buffer b) < cap)%N) by (destruct l; [congruence|]; unfold lenN in *; cbn [List.length] in *; lia).
      assert (NFull : is_full b = false) by (unfold is_full; apply N.eqb_neq; lia).
      rewrite NFull. unfold is_choked. rewrite UC2 by auto. unfold request_next_message. rewrite NFull, orb_false_r.
      destruct (quiet_none _ _ Q) as [Q' LI]. destruct (is_len_as_expected b); cbn [obind].
      + replace (10 <? idle + 1)%N with false by (symmetry; apply N.ltb_ge; lia).
        apply (IH fuel _ x1 b (idle + 1)%N RL2 D2); auto; [congruence|intros r H; apply WB; right; auto|cbn in LF; lia].
      + destruct (next_ok x1 (lenN (mb_buffer b))) as (bt & ->); [congruence|auto|lia|]. cbn [obind].
        replace (10 <? idle + 1)%N with false by (symmetry; apply N.ltb_ge; lia).
        apply (IH fuel (snd (read_stream s)) _ {| mb_buffer := mb_buffer b; mb_capacity := mb_capacity b; mb_expected_size := mb_expected_size b + 1 |}); auto.
        * apply send_reads_like; auto.
        * cbn [after_sending with_stream p_stream st_wsched]. congruence.
        * intros r H; apply WB; right; auto.
        * cbn in LF; lia.
    - destruct fuel as [|fuel]; [cbn in LF; lia|]. cbn [execute].
      destruct (behaved_attempt x s (Some r) c RL D) as (om & x1 & RM & RL2 & D2 & WS & SE & INV2 & SZ2 & UC2 & UC3 & SZ3 & _ & PR);
        [intros r' [= <-]; apply WB; left; auto|auto|]. cbn zeta in *. destruct (PR r eq_refl) as (m' & -> & PR').
      rewrite RM. cbn [obind].
      destruct (parsed_unique _ _ _ P PR') as [EM _]. rewrite (filter_content _ _ EM) in FT.
      assert (LB : (lenN (mb_buffer b) < cap)%N) by (unfold lenN in *; cbn [List.length] in *; lia).
      assert (NFull : is_full b = false) by (unfold is_full; apply N.eqb_neq; lia).
      unfold push_message. rewrite FT, NFull. cbn [negb andb].
      set (b1 := {| mb_buffer := mb_buffer b ++ [m']; mb_capacity := mb_capacity b; mb_expected_size := mb_expected_size b |}).
      assert (DA : flat_map get_content_data (mb_buffer b1) = flat_map get_content_data (mb_buffer b) ++ get_content_data m).
      { cbn [b1 mb_buffer]. rewrite flat_map_app. cbn [flat_map]. rewrite app_nil_r, (content_data _ _ EM). reflexivity. }
      destruct l as [|d l'].
      + assert (FU : is_full b1 = true).
        { unfold is_full. cbn [b1 mb_buffer mb_capacity]. unfold lenN in *. rewrite app_length. cbn [List.length] in *. apply N.eqb_eq. lia. }
        rewrite FU. unfold assemble_content. rewrite DA. cbn [List.concat]. rewrite app_nil_r. eauto.
      + assert (NFull1 : is_full b1 = false).
        { unfold is_full. cbn [b1 mb_buffer mb_capacity]. unfold lenN in *. rewrite app_length. cbn [List.length] in *. apply N.eqb_neq. lia. }
        rewrite NFull1. unfold is_choked. rewrite UC2 by auto. unfold request_next_message. rewrite NFull1, orb_false_r.
        pose proof (quiet_some _ _ _ Q) as Q'. cbn [N.add N.ltb N.compare Pos.compare Pos.compare_cont].
        assert (LB1 : (lenN (mb_buffer b1) + lenN (d :: l') = cap)%N).
        { cbn [b1 mb_buffer]. unfold lenN in *. rewrite app_length. cbn [List.length] in *. lia. }
        cbn [List.concat]. rewrite app_assoc, <- DA.
        destruct (is_len_as_expected b1); cbn [obind].
        * apply (IH fuel _ _ b1 1%N RL2 D2); auto; [congruence|intros r' H; apply WB; right; auto|congruence|cbn in LF; lia].
        * destruct (next_ok (apply_message x1 m') (lenN (mb_buffer b1))) as (bt & ->); [congruence|auto|unfold lenN in *; cbn [List.length] in *; lia|]. cbn [obind].
          apply (IH fuel (snd (read_stream s)) _ {| mb_buffer := mb_buffer b1; mb_capacity := mb_capacity b1; mb_expected_size := mb_expected_size b1 + 1 |}); auto.
          -- apply send_reads_like; auto.
          -- cbn [after_sending with_stream p_stream st_wsched]. congruence.
          -- intros r' H; apply WB; right; auto.
          -- discriminate.
          -- cbn in LF; lia.
    - destruct fuel as [|fuel]; [cbn in LF; lia|]. cbn [execute].
      destruct (behaved_attempt x s (Some r) c RL D) as (om & x1 & RM & RL2 & D2 & WS & SE & INV2 & SZ2 & UC2 & UC3 & SZ3 & _ & PR);
        [intros r' [= <-]; apply WB; left; auto|auto|]. cbn zeta in *. destruct (PR r eq_refl) as (m' & -> & PR'). rewrite RM. cbn [obind].
      assert (LB : (lenN (mb_buffer b) < cap)%N) by (destruct l; [congruence|]; unfold lenN in *; cbn [List.length] in *; lia).
      assert (NFull : is_full b = false) by (unfold is_full; apply N.eqb_neq; lia).
      unfold push_message. rewrite (NF m' PR'). cbn [andb]. rewrite NFull. unfold is_choked. rewrite UC2 by auto.
      unfold request_next_message. rewrite NFull, orb_false_r.
      pose proof (quiet_some _ _ _ Q) as Q'. cbn [N.add N.ltb N.compare Pos.compare Pos.compare_cont].
      destruct (is_len_as_expected b); cbn [obind].
      + apply (IH fuel _ _ b 1%N RL2 D2); auto; [congruence|intros r' H; apply WB; right; auto|cbn in LF; lia].
      + destruct (next_ok (apply_message x1 m') (lenN (mb_buffer b))) as (bt & ->); [congruence|auto|lia|]. cbn [obind].
        apply (IH fuel (snd (read_stream s)) _ {| mb_buffer := mb_buffer b; mb_capacity := mb_capacity b; mb_expected_size := mb_expected_size b + 1 |}); auto.
        * apply send_reads_like; auto.
        * cbn [after_sending with_stream p_stream st_wsched]. congruence.
        * intros r' H; apply WB; right; auto.
        * cbn in LF; lia.
  Qed.
End Cooperation.

(** ** C48: the piece *)

Lemma talkative_suffix : forall k a b, talkative k (a ++ b) -> talkative k b.
Proof. intros k a b T a' b' j E. apply (T (a ++ a') b' j). rewrite E, app_assoc. reflexivity. Qed.
Lemma talkative_quiet : forall c, talkative 10 c -> quiet 0 c.
Proof. intros c T. split; [|exact T]. intros j b E. specialize (T [] b j E). lia. Qed.

Lemma picks_blocks : forall size c, (forall r, In (Some r) c -> well_behaved size r) -> picks is_request_message c (blocks c).
Proof.
  intros size. induction c as [|[[id body]|] c IH]; intros WB; cbn [blocks flat_map]; [constructor| |constructor; apply IH; intros r H; apply WB; right; auto].
  assert (IH' : picks is_request_message c (blocks c)) by (apply IH; intros r H; apply WB; right; auto). clear IH.
  destruct (WB (id, body) ltac:(left; auto)) as (_ & (m & P) & _). destruct (block_message id body m P) as (B1 & B2 & _).
  change (flat_map _ c) with (blocks c). destruct ((id =? 6)%N || (id =? 7)%N) eqn:E.
  - assert (F : is_request_message m = true) by (apply B1; apply orb_true_iff in E; rewrite !N.eqb_eq in E; exact E).
    cbn [app]. rewrite <- (B2 F). econstructor; eauto.
  - cbn [app]. apply picks_other; [|exact IH']. intros m' P'. destruct (block_message id body m' P') as (B1' & _).
    destruct (is_request_message m'); [|reflexivity]. apply orb_false_iff in E. rewrite !N.eqb_neq in E.
    destruct (proj1 B1' eq_refl); lia.
Qed.

Lemma request_content : forall m m', msg_content m = msg_content m' -> is_request_message m = is_request_message m'.
Proof. intros m m' E. unfold is_request_message. rewrite E. reflexivity. Qed.
Lemma extension_content : forall m m', msg_content m = msg_content m' -> is_extension_data_message m = is_extension_data_message m'.
Proof. intros m m' E. unfold is_extension_data_message. rewrite E. reflexivity. Qed.

Lemma blocks_app : forall a b, blocks (a ++ b) = blocks a ++ blocks b.
Proof. intros a b. apply flat_map_app. Qed.

Lemma c48 : forall sha1 p fuel s pid ep i idx total opening rest, st_wsched s = [] ->
  parse_socket_addr ep <> None -> get_total_length p i = Ret total ->
  (0 < i_piece_length i)%N -> (idx < piece_count total (i_piece_length i))%N -> (total + i_piece_length i <= 2 ^ 64)%N ->
  (idx < 2 ^ 32)%N -> (i_piece_length i < 2 ^ 32)%N ->
  cooperates (compute_info_hash sha1 i) some_size s opening rest -> blocks opening = [] ->
  lenN (blocks rest) = piece_count (N.min (i_piece_length i) (total - idx * i_piece_length i)) 16384 ->
  (20 * N.to_nat idx + 20 <= List.length (i_pieces i))%nat ->
  sha1 (List.concat (blocks rest)) = firstn 20 (skipn (20 * N.to_nat idx) (i_pieces i)) ->
  (List.length (opening ++ rest) <= fuel)%nat ->
  download sha1 p fuel (Some s) pid ep i idx = Ret (Ok (List.concat (blocks rest))).
Proof.
  intros sha1 p fuel s pid ep i idx total opening rest W EP GT P I O I32 P32 CO BO BR LP HS LF. unfold download, connect.
  destruct (parse_socket_addr ep); [|congruence]. cbn [obind orbind].
  destruct (init_ok some_size ltac:(unfold some_size; auto) _ pid s opening rest W CO) as (pre & post & y & s' & E1 & E2 & RL & D & CH & SZ & WS & _).
  rewrite E1. cbn [obind]. rewrite GT. cbn [obind]. unfold download_block, get_piece_length. rewrite real_length by auto.
  cbn [obind]. unfold BLOCK_SIZE. rewrite step_by_count by lia. cbn [obind].
  set (plen := i_piece_length i) in *. set (cap := piece_count (N.min plen (total - idx * plen)) 16384) in *.
  destruct (count_bounds total plen P) as (_ & _ & B3). specialize (B3 idx I).
  assert (C : (0 < cap)%N).
  { destruct (count_bounds (N.min plen (total - idx * plen)) 16384 ltac:(lia)) as (C1 & _). fold cap in C1. nia. }
  destruct CO as [_ _ _ _ WB TA]. subst opening. rewrite blocks_app in BO. apply app_eq_nil in BO as [_ BO].
  assert (EB : blocks (post ++ rest) = blocks rest) by (rewrite blocks_app, BO; reflexivity).
  assert (WB' : forall r, In (Some r) (post ++ rest) -> well_behaved some_size r).
  { intros r H. apply WB. rewrite <- app_assoc. apply in_or_app. right. exact H. }
  assert (Q : forall z n, st_wsched (p_stream z) = [] -> sized some_size z -> (n < cap)%N ->
    exists b, next_block p 16384 idx total plen z n = Ret (after_sending z b)).
  { intros z n Wz _ Ln. unfold next_block. rewrite block_req by auto. cbn [obind]. rewrite send_ok by exact Wz. eauto. }
  destruct (execute_ok some_size ltac:(unfold some_size; auto) is_request_message (next_block p 16384 idx total plen) cap request_content Q
    (post ++ rest) (blocks (post ++ rest)) ltac:(eapply picks_blocks; eauto) fuel s' y (buffer_new cap) 0%N) as (z & EX); auto.
  - apply talkative_quiet. apply (talkative_suffix 10 pre). rewrite app_assoc. exact TA.
  - rewrite EB. cbn [buffer_new mb_buffer]. unfold lenN at 1. cbn [List.length]. rewrite BR. reflexivity.
  - rewrite EB. intros Z. rewrite Z in BR. unfold lenN in BR. cbn in BR. lia.
  - rewrite !app_length in LF. rewrite app_length. lia.
  - rewrite EX. cbn [obind buffer_new mb_buffer flat_map app]. rewrite EB. unfold verify_piece. rewrite get_piece_spec.
    destruct (Nat.leb_spec (20 * N.to_nat idx + 20) (List.length (i_pieces i))); [|lia]. cbn [obind]. rewrite HS, bytes_eqb_refl. reflexivity.
Qed.

(** ** C49: the metadata *)

Lemma metadata_picks : forall size c l, metadata_blocks c l -> (forall r, In (Some r) c -> well_behaved size r) ->
  picks is_extension_data_message c l.
Proof.
  intros size c l H. induction H as [|c l H IH|r m e c l P E T H IH|r c l N H IH]; intros WB.
  - constructor.
  - constructor. apply IH. intros r Hr. apply WB. right. exact Hr.
  - assert (G : get_content_data m = ex_get_data e) by (unfold get_content_data; rewrite E; reflexivity).
    rewrite <- G. econstructor; [exact P| |apply IH; intros r' Hr; apply WB; right; exact Hr].
    unfold is_extension_data_message. rewrite E. unfold ex_is_data. rewrite T. reflexivity.
  - apply picks_other; [|apply IH; intros r' Hr; apply WB; right; exact Hr].
    intros m P. unfold is_extension_data_message. destruct (msg_content m) eqn:E; try reflexivity.
    specialize (N m _ P E). unfold ex_is_data. destruct (ex_msg_type _) as [k|]; [|reflexivity].
    apply N.eqb_neq. congruence.
Qed.

Lemma metadata_none : forall a b l, metadata_blocks (a ++ b) l -> l = [] -> metadata_blocks b [].
Proof.
  induction a as [|o a IH]; intros b l H E; [subst; exact H|]. cbn [app] in H. inversion H; subst; try discriminate; eapply IH; eauto.
Qed.
Lemma metadata_app : forall a b l, metadata_blocks a [] -> metadata_blocks b l -> metadata_blocks (a ++ b) l.
Proof.
  intros a b l Ha. remember [] as nl eqn:En. induction Ha as [|c l' Ha IH|r m e c l' P E T Ha IH|r c l' N Ha IH]; intros H; [exact H| |discriminate|].
  - cbn [app]. constructor. auto.
  - cbn [app]. apply mb_other; auto.
Qed.

Lemma c49 : forall fuel s pid ep ih n opening rest l i, st_wsched s = [] -> parse_socket_addr ep <> None ->
  (0 < n)%N -> (n < 2 ^ 64)%N -> cooperates ih (this_size n) s opening rest ->
  metadata_blocks opening [] -> metadata_blocks rest l -> lenN l = piece_count n 16384 ->
  info_from_bytes (List.concat l) = Ret (Ok i) -> (List.length (opening ++ rest) <= fuel)%nat ->
  get_info fuel (Some s) pid ih ep = Ret (Ok i).
Proof.
  intros fuel s pid ep ih n opening rest l i W EP N0 N64 CO MO MR CN II LF. unfold get_info, connect.
  destruct (parse_socket_addr ep); [|congruence]. cbn [obind orbind].
  assert (NZ : forall k e, this_size n k e -> k <> 0%N) by (intros k e [-> _]; lia).
  destruct (init_ok (this_size n) NZ _ pid s opening rest W CO) as (pre & post & y & s' & E1 & E2 & RL & D & CH & SZ & WS & _).
  rewrite E1. cbn [obind]. unfold download_info, get_metadata_size, INFO_PIECE_SIZE. destruct SZ as [S1 S2]. rewrite S1.
  rewrite step_by_count by lia. cbn [obind]. set (cap := piece_count n 16384) in *.
  destruct (count_bounds n 16384 ltac:(lia)) as (C1 & _ & C3). fold cap in C1, C3. assert (C : (0 < cap)%N) by nia.
  destruct CO as [_ _ _ _ WB TA]. subst opening.
  assert (WB' : forall r, In (Some r) (post ++ rest) -> well_behaved (this_size n) r).
  { intros r H. apply WB. rewrite <- app_assoc. apply in_or_app. right. exact H. }
  assert (MP : metadata_blocks (post ++ rest) l) by (apply metadata_app; [eapply metadata_none; eauto|auto]).
  assert (Q : forall z k, st_wsched (p_stream z) = [] -> sized (this_size n) z -> (k < cap)%N ->
    exists b, next_piece z k = Ret (after_sending z b)).
  { intros z k Wz [_ Sz] Ln. unfold next_piece, get_extension_id_by_name.
    destruct (hm_get (p_extensions z) (s2b "ut_metadata")) as [id|]; [|congruence]. cbn [obind].
    specialize (C3 k Ln). destruct (c15 id k ltac:(lia)) as (m & -> & Em). cbn [obind]. rewrite send_ok by exact Wz. eauto. }
  destruct (execute_ok (this_size n) NZ is_extension_data_message next_piece cap extension_content Q
    (post ++ rest) l ltac:(eapply metadata_picks; eauto) fuel s' y (buffer_new cap) 0%N) as (z & EX); auto.
  - split; auto.
  - apply talkative_quiet. apply (talkative_suffix 10 pre). rewrite app_assoc. exact TA.
  - intros Z. subst l. unfold lenN in CN. cbn in CN. lia.
  - rewrite !app_length in LF. rewrite app_length. lia.
  - rewrite EX. cbn [obind buffer_new mb_buffer flat_map app]. rewrite II. reflexivity.
Qed.

(** ** Peers whose messages are already there *)

Lemma delivers_buffered : forall s h ms more, Forall (fun t => t <> TErr) (st_sched s) -> List.length h = 68%nat -> hd 0%N h = 19%N ->
  Forall (fun m => short_body (snd m)) ms -> st_avail s = h ++ wire ms ++ more -> delivers s (Some (19%N, h) :: map Some ms).
Proof.
  intros s h ms more NE L HD SB A.
  pose proof (all_no_errors 3 s NE) as NE3.
  destruct (c30_handshake s h (wire ms ++ more) NE3 L HD A) as (s' & m & R & INC & AV).
  assert (NE' : Forall (fun t => t <> TErr) (st_sched s')).
  { eapply later_no_errors; [|exact NE]. pose proof (stream_later s) as LT. rewrite R in LT. exact LT. }
  rewrite <- app_assoc in AV. destruct (c30_sequence ms s' (more ++ m) NE' SB AV) as (s2 & m2 & R2 & _).
  unfold delivers. cbn [List.length read_messages]. rewrite R, map_length, R2. cbn [fst map option_map]. f_equal.
  rewrite map_map. apply map_ext. intros [id body]. reflexivity.
Qed.

Lemma talkative_some : forall (ms : list raw), talkative 10 (map Some ms).
Proof.
  intros ms a b j E. destruct j as [|j]; [lia|]. exfalso.
  assert (H : In None (map (@Some raw) ms)) by (rewrite E; apply in_or_app; right; left; reflexivity).
  apply in_map_iff in H as (r & H & _). discriminate.
Qed.

Lemma blocks_some : forall id body c, blocks (Some (id, body) :: c) = (if ((id =? 6) || (id =? 7))%N then [skipn 8 body] else []) ++ blocks c.
Proof. reflexivity. Qed.

Lemma cooperates_buffered : forall ih size s h opening rest more, Forall (fun t => t <> TErr) (st_sched s) ->
  List.length h = 68%nat -> hd 0%N h = 19%N -> firstn 20 (skipn 28 h) = ih ->
  st_avail s = h ++ wire (opening ++ rest) ++ more -> Forall (fun m => short_body (snd m)) (opening ++ rest) ->
  (List.length opening <= 10)%nat -> (exists body, In (1%N, body) opening) ->
  (exists r m n e, In r opening /\ parsed r m /\ states_size m = Some (n, e)) ->
  (forall r, In r (opening ++ rest) -> well_behaved size r) ->
  cooperates ih size s (map Some opening) (map Some rest).
Proof.
  intros ih size s h opening rest more NE L HD HH A SB LO (b & UC) (r & m & n & e & ST & P & SS) WB. constructor.
  - exists h. split; [|auto]. rewrite <- map_app. eapply delivers_buffered; eauto.
  - rewrite map_length. exact LO.
  - exists b. apply in_map. exact UC.
  - exists r, m, n, e. split; [apply in_map; exact ST|auto].
  - intros r' H. rewrite <- map_app in H. apply in_map_iff in H as (r2 & [= ->] & H). auto.
  - rewrite <- map_app. apply talkative_some.
Qed.

Lemma parsed_block : forall body, (8 <= List.length body)%nat -> exists m, parsed (7%N, body) m.
Proof.
  intros body L. destruct (c17 body 0 7) as (CP & CH & _).
  destruct (new_raw body 0 7) as [[m|[]]| |] eqn:E.
  - exists m, 0%N. exact E.
  - exfalso. revert E. unfold new_raw. cbn [N.eqb Pos.eqb orb]. destruct (request_from_bytes body); discriminate.
  - exfalso. assert (U : unreadable body 7) by (apply CP; reflexivity). revert U. unfold unreadable. intros [[_ U]|[[U _]|[U _]]]; [lia|discriminate|discriminate].
  - exfalso. assert (U : endless body 7) by (apply CH; reflexivity). destruct U as [U _]. discriminate.
Qed.

Definition extended_body : bytes := 0%N :: s2b "d13:metadata_sizei1ee".
Definition extended_msg : message :=
  {| msg_id := 20; msg_length := 0; msg_content := match extension_from_bytes extended_body with Ret (Ok e) => CExtension e | _ => CNothing end |}.
Lemma extended_parsed : parsed (20%N, extended_body) extended_msg.
Proof. exists 0%N. vm_compute. reflexivity. Qed.
Lemma extended_states : exists e, states_size extended_msg = Some (1%N, e).
Proof. eexists. vm_compute. reflexivity. Qed.

Lemma seed_blocks : forall idx blks k,
  blocks (map Some (map (fun kb => (7%N, big_endian 4 idx ++ big_endian 4 (16384 * N.of_nat (fst kb)) ++ snd kb)) (combine (seq k (List.length blks)) blks))) = blks.
Proof.
  intros idx. induction blks as [|b t IH]; intros k; [reflexivity|]. cbn [List.length seq combine map].
  rewrite blocks_some. cbn [N.eqb Pos.eqb orb fst snd]. rewrite IH. cbn [app]. f_equal.
Qed.

(** ** C48: a seed *)

Lemma seed_behaves : forall idx blks r, In r (seed_messages idx blks) -> well_behaved some_size r.
Proof.
  intros idx blks r [<-|[<-|H]].
  - split; [discriminate|]. split; [exists {| msg_id := 1; msg_length := 0; msg_content := CNothing |}, 0%N; reflexivity|].
    intros m n e (l & P) S. cbn in P. injection P as <-. discriminate.
  - split; [discriminate|]. split; [exists extended_msg; apply extended_parsed|].
    intros m n e P S. destruct (parsed_unique _ _ _ P extended_parsed) as [E _]. destruct extended_states as [e' E'].
    unfold states_size in *. rewrite E in S. rewrite E' in S. injection S as <- _. unfold some_size. discriminate.
  - apply in_map_iff in H as ([k b] & <- & H). cbn [fst snd]. split; [discriminate|].
    split; [apply parsed_block; rewrite !app_length, !be_length; lia|].
    intros m n e (l & P) S. cbn [fst snd] in P. destruct (c17_content _ _ _ _ P) as (_ & C6 & _).
    unfold states_size in S. destruct (msg_content m) eqn:E; try discriminate.
    specialize (C6 (or_intror eq_refl)). destruct C6 as (? & C6 & _). congruence.
Qed.

Lemma seed_short : forall idx blks, Forall (fun b => lenN b <= 16384)%N blks -> Forall (fun m => short_body (snd m)) (seed_messages idx blks).
Proof.
  intros idx blks F. constructor; [vm_compute; reflexivity|]. constructor; [vm_compute; reflexivity|].
  rewrite Forall_forall in *. intros m H. apply in_map_iff in H as ([k b] & <- & H). cbn [fst snd].
  apply in_combine_r in H. specialize (F b H). unfold short_body, lenN in *. rewrite !app_length, !be_length. lia.
Qed.

Lemma layout_parts : forall ih pid, List.length ih = 20%nat -> List.length pid = 20%nat ->
  List.length (handshake_layout ih pid) = 68%nat /\ hd 0%N (handshake_layout ih pid) = 19%N /\ firstn 20 (skipn 28 (handshake_layout ih pid)) = ih.
Proof.
  intros ih pid L1 L2. unfold handshake_layout. split; [rewrite !app_length; cbn [List.length s2b]; rewrite L1, L2; reflexivity|].
  split; [reflexivity|]. cbn [skipn s2b app]. rewrite <- L1 at 1. apply firstn_app_len.
Qed.

Lemma c48_seed : forall sha1 p s pid pid' ep i idx total blks fuel, parse_socket_addr ep <> None -> get_total_length p i = Ret total ->
  (0 < i_piece_length i)%N -> (idx < piece_count total (i_piece_length i))%N -> (total + i_piece_length i <= 2 ^ 64)%N ->
  (idx < 2 ^ 32)%N -> (i_piece_length i < 2 ^ 32)%N -> (forall b, List.length (sha1 b) = 20%nat) -> List.length pid' = 20%nat ->
  s = seed (compute_info_hash sha1 i) pid' idx blks -> Forall (fun b => lenN b <= 16384)%N blks ->
  lenN blks = piece_count (N.min (i_piece_length i) (total - idx * i_piece_length i)) 16384 ->
  (20 * N.to_nat idx + 20 <= List.length (i_pieces i))%nat ->
  sha1 (List.concat blks) = firstn 20 (skipn (20 * N.to_nat idx) (i_pieces i)) ->
  (List.length blks + 2 <= fuel)%nat ->
  download sha1 p fuel (Some s) pid ep i idx = Ret (Ok (List.concat blks)).
Proof.
  intros sha1 p s pid pid' ep i idx total blks fuel EP GT P I O I32 P32 HL PL -> SB BC LP HS LF.
  set (ih := compute_info_hash sha1 i). assert (LI : List.length ih = 20%nat) by apply HL.
  destruct (layout_parts ih pid' LI PL) as (L1 & L2 & L3).
  pose proof (seed_blocks idx blks 0) as EB. pose proof (seed_behaves idx blks) as WB. pose proof (seed_short idx blks SB) as SS.
  set (bl := map (fun kb => (7%N, big_endian 4 idx ++ big_endian 4 (16384 * N.of_nat (fst kb)) ++ snd kb)) (combine (seq 0 (List.length blks)) blks)) in *.
  assert (EM : seed_messages idx blks = [(1%N, []); (20%N, extended_body)] ++ bl) by reflexivity.
  assert (CO : cooperates ih some_size (seed ih pid' idx blks) (map Some [(1%N, []); (20%N, extended_body)]) (map Some bl)).
  { apply cooperates_buffered with (h := handshake_layout ih pid') (more := []); auto.
    - constructor.
    - cbn [seed st_avail]. rewrite app_nil_r. reflexivity.
    - cbn. lia.
    - exists []. left. reflexivity.
    - destruct extended_states as [e E]. exists (20%N, extended_body), extended_msg, 1%N, e. split; [right; left; reflexivity|]. split; [apply extended_parsed|exact E]. }
  change (blocks (map Some bl) = blks) in EB. replace (List.concat blks) with (List.concat (blocks (map Some bl))) by (rewrite EB; reflexivity).
  apply c48 with (total := total) (opening := map Some [(1%N, []); (20%N, extended_body)]); auto.
  - rewrite EB. exact BC.
  - rewrite EB. exact HS.
  - rewrite app_length, !map_length. unfold bl. rewrite map_length, combine_length, seq_length. cbn [List.length]. lia.
Qed.

(** A piece can be cut into blocks. *)
Lemma chop : forall k n (piece : bytes), (0 < k)%N -> (List.length piece <= n)%nat ->
  exists blks, List.concat blks = piece /\ Forall (fun b => lenN b <= k)%N blks /\ lenN blks = piece_count (lenN piece) k.
Proof.
  intros k. induction n as [|n IH]; intros piece K L.
  - destruct piece; [|cbn in L; lia]. exists []. split; [reflexivity|]. split; [constructor|]. unfold piece_count, lenN. cbn [List.length].
    symmetry. apply N.div_small. lia.
  - destruct piece as [|x piece'] eqn:E; [exists []; split; [reflexivity|]; split; [constructor|]; unfold piece_count, lenN; cbn [List.length]; symmetry; apply N.div_small; lia|].
    rewrite <- E in *. assert (PL : (0 < List.length piece)%nat) by (rewrite E; cbn; lia). clear E x piece'.
    destruct (IH (skipn (N.to_nat k) piece) K) as (blks & E1 & E2 & E3); [rewrite skipn_length; lia|].
    exists (firstn (N.to_nat k) piece :: blks). split; [cbn [List.concat]; rewrite E1; apply firstn_skipn|].
    split; [constructor; [unfold lenN; rewrite firstn_length; lia|auto]|].
    unfold lenN in *. cbn [List.length]. rewrite Nat2N.inj_succ, E3, skipn_length. unfold piece_count.
    destruct (N.le_gt_cases (N.of_nat (List.length piece)) k) as [Q|Q].
    + replace (N.of_nat (List.length piece - N.to_nat k)) with 0%N by lia. rewrite N.div_small by lia.
      apply N.div_unique with (r := (N.of_nat (List.length piece) - 1)%N); lia.
    + replace (N.of_nat (List.length piece) + k - 1)%N with (N.of_nat (List.length piece - N.to_nat k) + k - 1 + 1 * k)%N by lia.
      rewrite N.div_add by lia. lia.
Qed.

(** ** C49: a seed of the metadata *)

Lemma extension_parsed : forall id d data, decodable text (BDict d) -> distinct_keys (BDict d) ->
  exists m e, parsed (extension_message id d data) m /\ msg_content m = CExtension e /\ ex_get_data e = data /\
    ex_msg_type e = int_at d (s2b "msg_type") /\ ex_get_metadata_size e = int_at d (s2b "metadata_size") /\
    (forall k, hm_get (ex_get_extensions e) k = option_map (fun n => n mod 256)%N (int_at (dict_at d (s2b "m")) k)).
Proof.
  intros id d data D K. destruct (c47 id d data D K) as (e & E & _ & E2 & E3 & E4 & _ & E5).
  exists {| msg_id := 20; msg_length := 0; msg_content := CExtension e |}, e.
  split; [|auto]. exists 0%N. cbn [extension_message fst snd]. unfold new_raw. cbn [N.eqb Pos.eqb orb]. rewrite E. reflexivity.
Qed.

Lemma text_keys : forall d, forallb (fun kv : bytes * bval => (utf8_valid (fst kv) && (N.of_nat (List.length (fst kv)) <? 2 ^ 64)%N)%bool) d = true ->
  Forall (fun kv : bytes * bval => text (fst kv) /\ (N.of_nat (List.length (fst kv)) < 2 ^ 64)%N) d.
Proof.
  intros d H. rewrite forallb_forall in H. apply Forall_forall. intros kv I. specialize (H kv I). apply andb_true_iff in H as [H1 H2].
  apply N.ltb_lt in H2. split; auto.
Qed.

Section InfoSeed.
  Variables n ut_id : N.
  Hypothesis n_size : (0 < n < 2 ^ 64)%N.
  Hypothesis id_size : (ut_id < 2 ^ 64)%N.
  Let hello := [(s2b "m", BDict [(s2b "ut_metadata", BInt ut_id)]); (s2b "metadata_size", BInt n)].
  Let data_dict k := [(s2b "msg_type", BInt 1); (s2b "piece", BInt k); (s2b "total_size", BInt n)].

  Lemma hello_ok : decodable text (BDict hello) /\ distinct_keys (BDict hello).
  Proof.
    split.
    - constructor; [apply text_keys; vm_compute; reflexivity|]. repeat constructor; cbn [snd]; try lia.
    - constructor; [|repeat constructor; cbn; auto]. cbn [map fst hello]. constructor; [cbn [In]; intuition discriminate|]. constructor; [cbn; auto|constructor].
  Qed.
  Lemma data_dict_ok : forall k, (k < 2 ^ 64)%N -> decodable text (BDict (data_dict k)) /\ distinct_keys (BDict (data_dict k)).
  Proof.
    intros k K. split.
    - constructor; [apply text_keys; vm_compute; reflexivity|]. repeat constructor; cbn [snd]; lia.
    - constructor; [|repeat constructor]. cbn [map fst data_dict]. repeat constructor; cbn [In]; intuition discriminate.
  Qed.

  Lemma hello_states : exists m e, parsed (extension_message 0 hello []) m /\ states_size m = Some (n, e) /\
    hm_get e (s2b "ut_metadata") <> None /\ (forall e', msg_content m = CExtension e' -> ex_msg_type e' <> Some 1%N).
  Proof.
    destruct hello_ok as [D K]. destruct (extension_parsed 0 hello [] D K) as (m & e & P & C & _ & MT & MS & EX).
    exists m, (ex_get_extensions e). split; [exact P|]. unfold states_size. rewrite C, MS.
    change (int_at hello (s2b "metadata_size")) with (Some n). split; [reflexivity|]. split.
    - rewrite EX. cbn. discriminate.
    - intros e' [= <-]. rewrite MT. discriminate.
  Qed.
  Lemma data_block : forall k b, (k < 2 ^ 64)%N -> exists m e, parsed (extension_message 1 (data_dict k) b) m /\
    msg_content m = CExtension e /\ ex_msg_type e = Some 1%N /\ ex_get_data e = b /\ states_size m = None.
  Proof.
    intros k b L. destruct (data_dict_ok k L) as [D K]. destruct (extension_parsed 1 (data_dict k) b D K) as (m & e & P & C & DA & MT & MS & _).
    exists m, e. split; [exact P|]. split; [exact C|]. split; [rewrite MT; reflexivity|]. split; [exact DA|]. unfold states_size. rewrite C, MS. reflexivity.
  Qed.

  Lemma info_seed_behaves : forall blks r, (N.of_nat (List.length blks) < 2 ^ 64)%N -> In r (info_seed_messages n ut_id blks) -> well_behaved (this_size n) r.
  Proof.
    intros blks r LB [<-|[<-|H]].
    - split; [discriminate|]. split; [exists {| msg_id := 1; msg_length := 0; msg_content := CNothing |}, 0%N; reflexivity|].
      intros m k e (l & P) S. cbn in P. injection P as <-. discriminate.
    - split; [discriminate|]. destruct hello_states as (m & e & P & S & U & _). split; [exists m; exact P|].
      intros m' k e' P' S'. destruct (parsed_unique _ _ _ P P') as [E _]. unfold states_size in *. rewrite <- E in S'. rewrite S in S'.
      injection S' as <- <-. split; [reflexivity|exact U].
    - apply in_map_iff in H as ([k b] & <- & H). cbn [fst snd]. split; [discriminate|].
      apply in_combine_l in H. apply in_seq in H. destruct (data_block (N.of_nat k) b ltac:(lia)) as (m & e & P & C & _ & _ & S).
      split; [exists m; exact P|]. intros m' k' e' P' S'. destruct (parsed_unique _ _ _ P P') as [E _]. unfold states_size in *. rewrite <- E in S'. congruence.
  Qed.

  Lemma info_seed_blocks : forall blks k, (N.of_nat (k + List.length blks) < 2 ^ 64)%N ->
    metadata_blocks (map Some (map (fun kb => extension_message 1 (data_dict (N.of_nat (fst kb))) (snd kb)) (combine (seq k (List.length blks)) blks))) blks.
  Proof.
    induction blks as [|b t IH]; intros k L; [constructor|]. cbn [List.length seq combine map fst snd].
    destruct (data_block (N.of_nat k) b ltac:(cbn in L; lia)) as (m & e & P & C & MT & DA & _). rewrite <- DA at 2.
    econstructor; [exact P|exact C|exact MT|]. apply IH. cbn in L. lia.
  Qed.

  Lemma info_seed_short : forall blks, (N.of_nat (List.length blks) < 2 ^ 64)%N -> Forall (fun b => lenN b <= 16384)%N blks ->
    Forall (fun m => short_body (snd m)) (info_seed_messages n ut_id blks).
  Proof.
    intros blks LB F. pose proof (decimal_len_bound n ltac:(lia)) as DN. pose proof (decimal_len_bound ut_id id_size) as DU.
    constructor; [vm_compute; reflexivity|]. constructor.
    - unfold short_body, lenN in *. cbn [extension_message snd benc map List.concat fst app]. repeat (rewrite ?app_length; cbn [List.length]).
      change (List.length (bstr (s2b "m"))) with 3%nat. change (List.length (bstr (s2b "ut_metadata"))) with 14%nat.
      change (List.length (bstr (s2b "metadata_size"))) with 16%nat. change (List.length (s2b "d")) with 1%nat. change (List.length (s2b "e")) with 1%nat. change (List.length (s2b "i")) with 1%nat. lia.
    - rewrite Forall_forall in *. intros m H. apply in_map_iff in H as ([k b] & <- & H). cbn [fst snd].
      pose proof (in_combine_r _ _ _ _ H) as Hb. apply in_combine_l in H. apply in_seq in H. specialize (F b Hb).
      change (@List.length bytes blks) with (@List.length (list N) blks) in H. pose proof (decimal_len_bound (N.of_nat k) ltac:(lia)) as DK.
      unfold short_body, lenN in *. cbn [extension_message snd benc map List.concat fst app]. repeat (rewrite ?app_length; cbn [List.length]).
      change (List.length (bstr (s2b "msg_type"))) with 10%nat. change (List.length (bstr (s2b "piece"))) with 7%nat.
      change (List.length (bstr (s2b "total_size"))) with 13%nat. change (List.length (decimal 1)) with 1%nat. change (List.length (s2b "d")) with 1%nat. change (List.length (s2b "e")) with 1%nat. change (List.length (s2b "i")) with 1%nat. lia.
  Qed.

  Lemma c49_seed : forall fuel pid pid' ep ih blks i, parse_socket_addr ep <> None -> List.length ih = 20%nat -> List.length pid' = 20%nat ->
    Forall (fun b => lenN b <= 16384)%N blks -> lenN blks = piece_count n 16384 ->
    info_from_bytes (List.concat blks) = Ret (Ok i) -> (List.length blks + 2 <= fuel)%nat ->
    get_info fuel (Some (info_seed ih pid' n ut_id blks)) pid ih ep = Ret (Ok i).
  Proof.
    intros fuel pid pid' ep ih blks i EP LI PL SB BC II LF.
    destruct (layout_parts ih pid' LI PL) as (L1 & L2 & L3).
    assert (LB : (N.of_nat (List.length blks) < 2 ^ 64)%N).
    { change (lenN blks < 2 ^ 64)%N. rewrite BC. unfold piece_count. apply N.div_lt_upper_bound; lia. }
    pose proof (info_seed_behaves blks) as WB. pose proof (info_seed_blocks blks 0 LB) as MB.
    set (bl := map (fun kb => extension_message 1 (data_dict (N.of_nat (fst kb))) (snd kb)) (combine (seq 0 (List.length blks)) blks)) in *.
    assert (EM : info_seed_messages n ut_id blks = [(1%N, []); extension_message 0 hello []] ++ bl) by reflexivity.
    destruct hello_states as (m & e & P & S & _ & NB).
    assert (SS : Forall (fun m => short_body (snd m)) (info_seed_messages n ut_id blks)) by (apply info_seed_short; auto).
    assert (CO : cooperates ih (this_size n) (info_seed ih pid' n ut_id blks) (map Some [(1%N, []); extension_message 0 hello []]) (map Some bl)).
    { apply cooperates_buffered with (h := handshake_layout ih pid') (more := []); auto.
      - constructor.
      - cbn [info_seed st_avail]. rewrite app_nil_r. reflexivity.
      - cbn. lia.
      - exists []. left. reflexivity.
      - exists (extension_message 0 hello []), m, n, e. split; [right; left; reflexivity|]. auto. }
    apply c49 with (n := n) (opening := map Some [(1%N, []); extension_message 0 hello []]) (rest := map Some bl) (l := blks); auto; try lia.
    - cbn [map]. apply mb_other.
      { intros m' e' (l & P') C. cbn in P'. injection P' as <-. discriminate. }
      apply mb_other; [|constructor]. intros m' e' P' C. destruct (parsed_unique _ _ _ P P') as [E _]. apply NB. rewrite E. exact C.
    - rewrite app_length, !map_length. unfold bl. rewrite map_length, combine_length, seq_length. cbn [List.length]. lia.
  Qed.
End InfoSeed.

(** ** C50: a handshake for another torrent *)

Lemma write_reads_like : forall x m s, reads_like x s -> reads_like (send_message x m) s.
Proof.
  intros x m s (o & w & E). unfold send_message, write_stream, write_all. rewrite E. cbn [out st_wsched st_sent].
  destruct w as [|[|] w]; cbn; eexists _, _; reflexivity.
Qed.

Lemma other_handshake : forall pid s ih h, delivers s [Some (19%N, h)] -> List.length h = 68%nat -> firstn 20 (skipn 28 h) <> ih ->
  exists y, init_peer (peer_new pid s ih) = Ret (Err MEHandshake, y).
Proof.
  intros pid s ih h D L HH. unfold init_peer. cbn [peer_new p_info_hash p_id]. fold (peer_new pid s ih). set (x := peer_new pid s ih).
  assert (RL : reads_like (send_message x (new_handshake ih pid)) s).
  { apply write_reads_like. exists (st_sent s), (st_wsched s). rewrite out_self. reflexivity. }
  destruct (delivers_cons _ _ _ D) as [E _]. destruct (fst (read_stream s)) as [[[body id] len]|] eqn:F; [|discriminate].
  cbn [option_map] in E. injection E as -> ->. destruct (c14_parse h ltac:(lia)) as (hm & EH & IH & _).
  set (m := {| msg_id := 19%N; msg_length := len; msg_content := CHandshake hm |}).
  assert (NR : new_raw h len 19 = Ret (Ok m)) by (unfold new_raw; cbn [N.eqb Pos.eqb orb]; rewrite EH; reflexivity).
  destruct (attempt _ s _ (Some m) RL F NR) as (x1 & RM & W1 & RL1 & WS). unfold read_and_apply. rewrite RM. cbn [obind].
  assert (P : parsed (19%N, h) m) by (exists len; exact NR).
  destruct (apply_fields (19%N, h) m x1 P) as (_ & _ & AA & _). cbn [fst snd handshake_id N.eqb Pos.eqb] in AA.
  assert (ACT : is_active (apply_message x1 m) = false).
  { unfold is_active. rewrite AA, W1. apply bytes_eqb_neq. intros Z. apply HH. symmetry. exact Z. }
  rewrite ACT. cbn [negb]. eexists. reflexivity.
Qed.

Lemma c50_download : forall sha1 p fuel s pid ep i idx h, parse_socket_addr ep <> None -> delivers s [Some (19%N, h)] ->
  List.length h = 68%nat -> firstn 20 (skipn 28 h) <> compute_info_hash sha1 i ->
  download sha1 p fuel (Some s) pid ep i idx = Ret (Err MEHandshake).
Proof.
  intros sha1 p fuel s pid ep i idx h EP D L HH. unfold download, connect. destruct (parse_socket_addr ep); [|congruence]. cbn [obind orbind].
  destruct (other_handshake pid s _ h D L HH) as (y & ->). reflexivity.
Qed.

(** ** C48: the whole torrent *)

From Verif Require Import ModelWriter ModelActors SpecSystem ProofSystem.
From Coq Require Import Permutation.

Lemma describes_total : forall sha1 p i files T, describes sha1 i files T -> get_total_length p i = Ret (lenN T).
Proof.
  intros sha1 p i files T (GF & TL & L64 & PP & _). apply c11_files in GF. unfold get_files, get_total_length in *. destruct (i_files i) as [fs|].
  - injection GF as ->. rewrite usum_total by lia. f_equal. lia.
  - destruct (i_length i); [|discriminate]. injection GF as <-. cbn in TL. f_equal. lia.
Qed.

Lemma piece_length_of : forall T plen idx, (0 < plen)%N -> (idx < piece_count (lenN T) plen)%N ->
  lenN (torrent_piece T plen idx) = N.min plen (lenN T - idx * plen).
Proof.
  intros T plen idx P I. destruct (count_bounds (lenN T) plen P) as (_ & _ & B). specialize (B idx I).
  unfold torrent_piece, range, lenN in *. rewrite firstn_length, skipn_length. lia.
Qed.

Lemma c48_torrent : forall sha1 p cwd ih d s i files T, reached sha1 p cwd ih d s -> requested (sy_trace s) <> [] ->
  ta_info (sy_actor s) = Some i -> describes sha1 i files T -> disk_ready cwd files d -> sy_workers s = 5%nat ->
  (forall b, List.length (sha1 b) = 20%nat) -> (lenN T + i_piece_length i <= 2 ^ 64)%N -> (i_piece_length i < 2 ^ 32)%N ->
  (piece_count (lenN T) (i_piece_length i) <= 2 ^ 32)%N ->
  (forall ep, In ep (reported s) -> ModelTracker.parse_socket_addr ep <> None) ->
  exists ops, Forall op_ok ops /\ let s' := sys_run sha1 p cwd s ops in
    Permutation (completed s') (numbers (piece_count (lenN T) (i_piece_length i))) /\
    (collision sha1 (i_piece_length i) T s' \/
     forall k f, nth_error files k = Some f -> (0 < f_length f)%N ->
       sy_disk s' (cwd ++ f_path f) = Some (NFile (file_content T files k f))).
Proof.
  intros sha1 p cwd ih d s i files T R RQ EI DE DR W HL O P32 C32 EPS.
  pose proof DE as (GF & TL & L64 & PP & GFI & HS). apply c11_files in GF. pose proof (describes_total _ p _ _ _ DE) as GT.
  assert (PO : pieces_of p i (piece_count (lenN T) (i_piece_length i))) by (exists (lenN T); auto).
  destruct (c46_can_finish sha1 p cwd ih d s i _ R RQ EI PO W) as (ops & FO & PE & FI).
  { intros ep idx EP I. destruct (chop 16384 _ (torrent_piece T (i_piece_length i) idx) ltac:(lia) (le_n _)) as (blks & B1 & B2 & B3).
    exists (Some (seed (compute_info_hash sha1 i) (repeat 0%N 20) idx blks)), [], (List.length blks + 2)%nat, (List.concat blks).
    rewrite (piece_length_of T _ _ PP I) in B3. specialize (HS idx I).
    assert (LS : (20 * N.to_nat idx + 20 <= List.length (i_pieces i))%nat).
    { pose proof (HL (torrent_piece T (i_piece_length i) idx)) as LL. rewrite <- HS, firstn_length, skipn_length in LL. lia. }
    apply c48_seed with (pid' := repeat 0%N 20) (total := lenN T); auto; [lia|rewrite B1; congruence]. }
  cbn zeta in *. exists (ops ++ repeat OWrite (List.length (sy_writer (sys_run sha1 p cwd s ops)))).
  split; [apply Forall_app; split; [auto|apply Forall_forall; intros o H; apply repeat_spec in H; subst; exact I]|].
  assert (RA : forall a b, sys_run sha1 p cwd s (a ++ b) = sys_run sha1 p cwd (sys_run sha1 p cwd s a) b) by (intros; apply fold_left_app).
  rewrite RA. specialize (FI files T DE DR). set (s1 := sys_run sha1 p cwd s ops) in *.
  assert (K : forall n z, to_writer (sy_trace (sys_run sha1 p cwd z (repeat OWrite n))) = to_writer (sy_trace z)).
  { induction n as [|n IH]; intros z; [reflexivity|]. cbn [repeat]. change (sys_run sha1 p cwd z (OWrite :: repeat OWrite n)) with (sys_run sha1 p cwd (sys_step sha1 p cwd z OWrite) (repeat OWrite n)).
    rewrite IH. cbn [sys_step]. destruct (sy_writer_dead z); [reflexivity|]. destruct (sy_writer z); [reflexivity|].
    repeat (match goal with |- context [match ?x with _ => _ end] => destruct x end; try reflexivity). }
  unfold completed, collision in *. rewrite K. split; [exact PE|]. destruct FI as [C|FI]; [left; exact C|right; exact FI].
Qed.
