(** ProofCache2: descriptions obtained from peers are ordinary [Info] values; restarts. *)
From Verif Require Import Base Utf8 ModelBencode ModelMessages ModelTorrent ModelWriter ModelTracker ModelStream
  ModelPeer ModelCache SpecBencode SpecStream ProofBase SpecCache ProofPeer ProofWriter ProofTracker ProofCache.

Lemma octets_app : forall a b, octets (a ++ b) <-> octets a /\ octets b.
Proof. intros. apply Forall_app. Qed.
Lemma octets_firstn : forall n l, octets l -> octets (firstn n l).
Proof. intros n l H. rewrite <- (firstn_skipn n l) in H. apply octets_app in H. tauto. Qed.
Lemma octets_skipn : forall n l, octets l -> octets (skipn n l).
Proof. intros n l H. rewrite <- (firstn_skipn n l) in H. apply octets_app in H. tauto. Qed.
Lemma octets_takeN : forall n l, octets l -> octets (takeN n l).
Proof. intros n l H. unfold takeN. destruct (_ <=? _)%N; auto. now apply octets_firstn. Qed.
Lemma octets_dropN : forall n l, octets l -> octets (dropN n l).
Proof. intros n l H. unfold dropN. destruct (_ <=? _)%N; [constructor|]. now apply octets_skipn. Qed.
Lemma octets_slice : forall l a b s, octets l -> slice l a b = Ret s -> octets s.
Proof.
  intros l a b s H E. unfold slice in E. destruct (_ && _); [|discriminate]. injection E as <-.
  now apply octets_firstn, octets_skipn.
Qed.
Lemma octets_slice_from : forall l a s, octets l -> slice_from l a = Ret s -> octets s.
Proof.
  intros l a s H E. unfold slice_from in E. destruct (_ <=? _)%nat; [|discriminate]. injection E as <-.
  now apply octets_skipn.
Qed.
Lemma octets_index : forall l a x, octets l -> index l a = Ret x -> (x < 256)%N.
Proof.
  intros l a x H E. unfold index in E. destruct (nth_error l a) eqn:N; [|discriminate]. injection E as <-.
  apply nth_error_In in N. exact (proj1 (Forall_forall _ _) H _ N).
Qed.

(** ** Streams *)
Lemma env_octets : forall s, octets (incoming s) -> octets (incoming (snd (env_step s))).
Proof.
  intros s H. unfold env_step, incoming in *.
  destruct (st_sched s) as [|[c| |] r] eqn:E; cbn [snd st_avail st_closed st_sched delivered] in *.
  - now rewrite E.
  - destruct (st_closed s); [exact H|]. now rewrite <- app_assoc.
  - exact H.
  - exact H.
Qed.

Lemma avail_octets : forall s, octets (incoming s) -> octets (st_avail s).
Proof. unfold incoming. intros s H. apply octets_app in H. tauto. Qed.

Definition opt_octets (o : option bytes) : Prop := forall b, o = Some b -> octets b.

Lemma peek_octets : forall n s, octets (incoming s) ->
  opt_octets (fst (peek n s)) /\ octets (incoming (snd (peek n s))).
Proof.
  intros n s H. unfold peek. pose proof (env_octets s H) as H1. destruct (env_step s) as [f s1]. cbn [snd] in H1.
  pose proof (avail_octets _ H1) as Ha.
  destruct f; [split; [discriminate|exact H1]|]. destruct (st_avail s1) as [|b l] eqn:E.
  - split; [|exact H1]. intros x Hx. cbn in Hx. destruct (st_closed s1); [|discriminate]. injection Hx as <-. constructor.
  - split; [|exact H1]. intros x Hx. cbn in Hx. injection Hx as <-. now apply octets_takeN.
Qed.

Lemma read_octets : forall n s, octets (incoming s) ->
  opt_octets (fst (read n s)) /\ octets (incoming (snd (read n s))).
Proof.
  intros n s H. unfold read. pose proof (env_octets s H) as H1. destruct (env_step s) as [f s1]. cbn [snd] in H1.
  pose proof (avail_octets _ H1) as Ha.
  destruct f; [split; [discriminate|exact H1]|]. destruct (st_avail s1) as [|b l] eqn:E.
  - split; [|exact H1]. intros x Hx. cbn in Hx. destruct (st_closed s1); [|discriminate]. injection Hx as <-. constructor.
  - split.
    + intros x Hx. cbn [fst] in Hx. injection Hx as <-. now apply octets_takeN.
    + cbn [snd]. unfold incoming in *. cbn [set_avail st_avail st_closed st_sched].
      apply octets_app in H1 as [_ H1]. apply octets_app. split; [now apply octets_dropN|exact H1].
Qed.

Lemma peek_and_read_octets : forall n s, octets (incoming s) ->
  opt_octets (fst (peek_and_read n s)) /\ octets (incoming (snd (peek_and_read n s))).
Proof.
  intros n s H. unfold peek_and_read. destruct (peek_octets n s H) as [_ H1].
  destruct (peek n s) as [pk s1]. cbn [snd] in H1.
  destruct (_ =? n)%N; [|split; [discriminate|exact H1]].
  destruct (read_octets n s1 H1) as [R2 H2]. destruct (read n s1) as [rd s2]. cbn [fst snd] in R2, H2.
  destruct (_ =? n)%N; [|split; [discriminate|exact H2]].
  split; [|exact H2]. intros x Hx. cbn [fst] in Hx. injection Hx as <-.
  destruct rd; [now apply R2|constructor].
Qed.

Lemma read_body_octets : forall t n s, octets (incoming s) ->
  opt_octets (fst (read_body t n s)) /\ octets (incoming (snd (read_body t n s))).
Proof.
  induction t as [|t IH]; intros n s H; cbn [read_body]; [split; [discriminate|exact H]|].
  destruct (peek_and_read_octets n s H) as [R H1]. destruct (peek_and_read n s) as [[b|] s1]; cbn [fst snd] in *.
  - split; assumption.
  - now apply IH.
Qed.

Definition frame_octets (o : option (bytes * N * N)) : Prop := forall b i n, o = Some (b, i, n) -> octets b.

Lemma read_frame_octets : forall s, octets (incoming s) ->
  frame_octets (fst (read_frame s)) /\ octets (incoming (snd (read_frame s))).
Proof.
  intros s H. unfold read_frame. destruct (read_octets 4 s H) as [_ H1].
  destruct (read 4 s) as [[got|] s1]; cbn [snd] in H1; [|split; [discriminate|exact H1]].
  destruct (read_octets 1 s1 H1) as [_ H2].
  destruct (read 1 s1) as [[got1|] s2]; cbn [snd] in H2; [|split; [discriminate|exact H2]].
  destruct (_ =? 0)%N.
  - split; [|exact H2]. intros b i n E. cbn [fst] in E. injection E as <- <- <-. constructor.
  - destruct (read_body_octets 39 (from_be (overlay [0; 0; 0; 0]%N got) - 1)%N s2 H2) as [R3 H3].
    destruct (read_body 39 _ s2) as [[body|] s3]; cbn [fst snd] in *; (split; [|exact H3]).
    + intros b i n E. injection E as <- <- <-. now apply R3.
    + discriminate.
Qed.

Lemma read_stream_octets : forall s, octets (incoming s) ->
  frame_octets (fst (read_stream s)) /\ octets (incoming (snd (read_stream s))).
Proof.
  intros s H. unfold read_stream, has_messages. destruct (peek_octets 1 s H) as [_ H1].
  destruct (peek 1 s) as [r s1]. cbn [snd] in H1.
  destruct (negb _); [split; [discriminate|exact H1]|].
  destruct (peek_octets 68 s1 H1) as [R2 H2]. destruct (peek 68 s1) as [[buf|] s2]; cbn [fst snd] in R2, H2.
  - destruct (_ && _); [|now apply read_frame_octets].
    destruct (read_octets 68 s2 H2) as [R3 H3]. destruct (read 68 s2) as [[got|] s3]; cbn [fst snd] in R3, H3.
    + split; [|exact H3]. intros b i n E. cbn [fst] in E. injection E as <- <- <-. unfold overlay.
      apply octets_app. split; [now apply R3|]. apply octets_skipn. now apply R2.
    + split; [discriminate|exact H3].
  - now apply read_frame_octets.
Qed.

(** ** Messages *)
Lemma new_raw_octets : forall body n id m, octets body -> new_raw body n id = Ret (Ok m) ->
  octets (get_content_data m).
Proof.
  intros body n id m H E. unfold new_raw in E.
  destruct (id =? 2)%N. { injection E as <-. constructor. }
  destruct (id =? 5)%N. { injection E as <-. exact H. }
  destruct ((id =? 7)%N || (id =? 6)%N).
  { apply obind_ret in E as (r & R & E). injection E as <-. unfold get_content_data. cbn [msg_content].
    unfold request_from_bytes in R.
    repeat (apply obind_ret in R as (? & ? & R)). injection R as <-.
    unfold get_block_data. cbn. eapply octets_slice_from; eauto. }
  destruct (id =? 20)%N.
  { unfold orbind in E. destruct (extension_from_bytes body) as [[e|]| |] eqn:X; try discriminate.
    injection E as <-. unfold get_content_data. cbn [msg_content].
    unfold extension_from_bytes in X. apply obind_ret in X as (rest & _ & X). apply obind_ret in X as (r & _ & X).
    destruct r as [[c k]|]; [|discriminate]. apply obind_ret in X as (i & _ & X). apply obind_ret in X as (d & D & X).
    injection X as <-. cbn. eapply octets_slice_from; eauto. }
  destruct (id =? 19)%N.
  { apply obind_ret in E as (r & R & E). injection E as <-. constructor. }
  injection E as <-. constructor.
Qed.

Lemma read_message_octets : forall x m x', octets (incoming (p_stream x)) -> read_message x = Ret (m, x') ->
  octets (incoming (p_stream x')) /\ (forall y, m = Some y -> octets (get_content_data y)).
Proof.
  intros x m x' H E. unfold read_message in E. destruct (read_stream_octets _ H) as [R H1].
  destruct (read_stream (p_stream x)) as [[[[b i] n]|] s]; cbn [fst snd] in *.
  - apply obind_ret in E as (r & Er & E). injection E as <- <-. split; [exact H1|].
    intros y Hy. destruct r as [y'|]; [|discriminate]. injection Hy as ->.
    eapply new_raw_octets; [|exact Er]. eapply R. reflexivity.
  - injection E as <- <-. split; [exact H1|discriminate].
Qed.

Lemma apply_message_stream : forall x m, p_stream (apply_message x m) = p_stream x.
Proof.
  intros x m. unfold apply_message, apply_content.
  repeat (match goal with |- context [if ?b then _ else _] => destruct b end; try reflexivity);
  destruct (msg_content m); try reflexivity; destruct (ex_is_handshake _); reflexivity.
Qed.

Lemma write_incoming : forall s b, incoming (snd (write_all s b)) = incoming s.
Proof. intros s b. unfold write_all. destruct (st_wsched s) as [|[|] r]; reflexivity. Qed.

Lemma send_incoming : forall x m, incoming (p_stream (send_message x m)) = incoming (p_stream x).
Proof. intros x m. apply write_incoming. Qed.

Lemma read_and_apply_octets : forall x x', octets (incoming (p_stream x)) -> read_and_apply x = Ret x' ->
  octets (incoming (p_stream x')).
Proof.
  intros x x' H E. unfold read_and_apply in E. apply obind_ret in E as ([m x1] & R & E).
  apply read_message_octets in R as [H1 _]; auto. injection E as <-.
  destruct m; [|exact H1]. now rewrite apply_message_stream.
Qed.

Lemma init_rounds_octets : forall n x r x', octets (incoming (p_stream x)) -> init_rounds n x = Ret (r, x') ->
  octets (incoming (p_stream x')).
Proof.
  induction n as [|n IH]; intros x r x' H E; cbn [init_rounds] in E.
  - injection E as <- <-. exact H.
  - apply obind_ret in E as (x1 & R & E). apply read_and_apply_octets in R; auto.
    destruct (is_ready x1); [injection E as <- <-; exact R|]. eapply IH; eauto.
Qed.

Lemma init_peer_octets : forall x r x', octets (incoming (p_stream x)) -> init_peer x = Ret (r, x') ->
  octets (incoming (p_stream x')).
Proof.
  intros x r x' H E. unfold init_peer in E. apply obind_ret in E as (x1 & R & E).
  apply read_and_apply_octets in R; [|now rewrite send_incoming].
  destruct (negb (is_active x1)); [injection E as <- <-; exact R|].
  unfold peer_send_metadata_handshake, send_metadata_handshake_request in E.
  pose proof (write_incoming (p_stream (send_message x1 new_interested)) metadata_handshake_bytes) as W.
  destruct (write_all (p_stream (send_message x1 new_interested)) metadata_handshake_bytes) as [ok s].
  cbn [snd] in W. rewrite send_incoming in W.
  assert (Hs : octets (incoming s)) by now rewrite W.
  destruct (negb ok); [injection E as <- <-; exact Hs|].
  eapply init_rounds_octets; [|exact E]. exact Hs.
Qed.

Lemma execute_octets : forall fuel flt next x b idle r x',
  (forall z n z', next z n = Ret z' -> incoming (p_stream z') = incoming (p_stream z)) ->
  octets (incoming (p_stream x)) -> Forall (fun m => octets (get_content_data m)) (mb_buffer b) ->
  execute fuel flt next x b idle = Ret (Ok r, x') -> octets r.
Proof.
  induction fuel as [|fuel IH]; intros flt next x b idle r x' Hn H Hb E; cbn [execute] in E; [discriminate|].
  apply obind_ret in E as ([m x1] & R & E). apply read_message_octets in R as [H1 Hm]; auto.
  set (st := match m with
             | Some m0 => (apply_message x1 m0, push_message flt b m0, 0%N)
             | None => (x1, b, idle) end) in E.
  assert (P : octets (incoming (p_stream (fst (fst st)))) /\
              Forall (fun m => octets (get_content_data m)) (mb_buffer (snd (fst st)))).
  { subst st. destruct m as [m|]; cbn [fst snd]; [|auto]. rewrite apply_message_stream. split; auto.
    unfold push_message. destruct (_ && _); auto. cbn [mb_buffer]. apply Forall_app. split; auto. }
  destruct st as [[x2 b1] idle1]. cbn [fst snd] in P. destruct P as [H2 Hb1].
  destruct (is_full b1).
  { injection E as <- <-. unfold assemble_content. clear - Hb1.
    induction Hb1 as [|m l Hm Hl IHl]; cbn [flat_map]; [constructor|]. now apply octets_app. }
  destruct (is_choked x2); [discriminate|].
  apply obind_ret in E as ([b2 x3] & Q & E).
  assert (P2 : incoming (p_stream x3) = incoming (p_stream x2) /\ mb_buffer b2 = mb_buffer b1).
  { unfold request_next_message in Q. destruct (_ || _); [injection Q as <- <-; auto|].
    apply obind_ret in Q as (x4 & Q4 & Q). injection Q as <- <-. split; [now apply Hn in Q4|reflexivity]. }
  destruct P2 as [I3 B2]. destruct (10 <? _)%N; [discriminate|].
  eapply IH; [exact Hn| | |exact E]; [now rewrite I3|now rewrite B2].
Qed.

Lemma download_info_octets : forall fuel x r x', octets (incoming (p_stream x)) ->
  download_info fuel x = Ret (Ok r, x') -> octets r.
Proof.
  intros fuel x r x' H E. unfold download_info in E. apply obind_ret in E as (c & _ & E).
  eapply execute_octets; [|exact H| |exact E]; [|constructor].
  intros z n z' Hz. unfold next_piece in Hz. apply obind_ret in Hz as (i & _ & Hz). apply obind_ret in Hz as (m & _ & Hz).
  injection Hz as <-. apply send_incoming.
Qed.

(** ** Decoded values *)
Inductive sound : metainfo -> Prop :=
| sound_int : forall n, usize n -> sound (MInteger n)
| sound_list : forall l, Forall sound l -> sound (MList l)
| sound_str : forall s, octets s -> sound (MString s)
| sound_dict : forall d, Forall (fun kv => sound (snd kv)) d -> sound (MDictionary d)
| sound_nothing : sound MNothing.

Lemma digits_usize : forall c cur v e, get_consecutive_digits c cur = Ret (Ok (v, e)) -> usize v.
Proof.
  intros c cur v e H. unfold get_consecutive_digits in H. apply obind_ret in H as (a & _ & H).
  apply obind_ret in H as (ds & _ & H). destruct (utf8_valid ds); [|discriminate].
  destruct (parse_usize ds) as [n|] eqn:P; [|discriminate]. injection H as <- <-.
  unfold parse_usize in P. destruct ds; [discriminate|].
  destruct (_ <? two64)%N eqn:L; [|discriminate]. injection P as <-. now apply N.ltb_lt in L.
Qed.

Lemma string_octets : forall c cur s e, octets c -> parse_string c cur = Ret (Ok (s, e)) -> octets s.
Proof.
  intros c cur s e Hc H. unfold parse_string, orbind in H.
  destruct (get_consecutive_digits c cur) as [[[n e0]|]| |]; try discriminate.
  destruct (_ <=? _)%N; [|discriminate]. apply obind_ret in H as (b & B & H). injection H as <- <-.
  eapply octets_slice; eauto.
Qed.

Lemma insert_sound : forall d k v, Forall (fun kv : bytes * metainfo => sound (snd kv)) d -> sound v ->
  Forall (fun kv : bytes * metainfo => sound (snd kv)) (hm_insert d k v).
Proof.
  induction d as [|[k' v'] d IH]; intros k v F Hv; cbn [hm_insert]; [repeat constructor; auto|].
  inversion F; subst. destruct (bytes_eqb _ _); constructor; auto.
Qed.

Lemma decode_sound : forall c, octets c -> forall f,
  (forall cur m e, decode_f f c cur = Ret (Ok (m, e)) -> sound m) /\
  (forall cur acc m e, Forall sound acc -> list_f f c cur acc = Ret (Ok (m, e)) -> sound m) /\
  (forall cur acc m e, Forall (fun kv => sound (snd kv)) acc -> dict_f f c cur acc = Ret (Ok (m, e)) -> sound m).
Proof.
  intros c Hc. induction f as [|f (ID & IL & IM)]; [repeat split; intros; discriminate|].
  repeat split.
  - intros cur m e H. cbn [decode_f] in H. destruct (nth_error c cur) as [b|]; [|injection H as <- <-; constructor].
    destruct (b =? 105)%N.
    { unfold parse_integer, orbind in H.
      destruct (get_consecutive_digits c (S cur)) as [[[n e0]|]| |] eqn:G; try discriminate.
      injection H as <- <-. constructor. eapply digits_usize; eauto. }
    destruct (b =? 108)%N. { eapply IL; [|exact H]. constructor. }
    destruct (b =? 100)%N. { eapply IM; [|exact H]. constructor. }
    destruct (_ && _); [|injection H as <- <-; constructor].
    unfold orbind in H. destruct (parse_string c cur) as [[[s e0]|]| |] eqn:G; try discriminate.
    injection H as <- <-. constructor. eapply string_octets; eauto.
  - intros cur acc m e F H. cbn [list_f] in H. apply obind_ret in H as (b & _ & H).
    destruct (b =? 101)%N; [injection H as <- <-; now constructor|].
    unfold orbind in H. destruct (decode_f f c cur) as [[[v e0]|]| |] eqn:G; try discriminate.
    eapply IL; [|exact H]. apply Forall_app. split; auto. constructor; auto. eapply ID; eauto.
  - intros cur acc m e F H. cbn [dict_f] in H. apply obind_ret in H as (b & _ & H).
    destruct (b =? 101)%N; [injection H as <- <-; now constructor|].
    unfold orbind in H. destruct (parse_string c cur) as [[[k e0]|]| |] eqn:G; try discriminate.
    destruct (utf8_valid k); [|discriminate].
    destruct (decode_f f c e0) as [[[v e1]|]| |] eqn:G1; try discriminate.
    eapply IM; [|exact H]. apply insert_sound; auto. eapply ID; eauto.
Qed.

Lemma hm_get_in : forall V (d : hmap V) k v, hm_get d k = Some v -> exists k', In (k', v) d.
Proof.
  induction d as [|[k' v'] d IH]; intros k v H; cbn [hm_get] in H; [discriminate|].
  destruct (bytes_eqb _ _); [injection H as ->; exists k'; now left|].
  destruct (IH k v H) as [k2 I]. exists k2. now right.
Qed.

Lemma sound_get : forall m k v d, sound m -> get_dict_content m = Ok d -> hm_get d k = Some v -> sound v.
Proof.
  intros m k v d S G H. destruct m; try discriminate. cbn in G. injection G as ->.
  inversion S as [| | |? F|]; subst. apply hm_get_in in H as [k' I].
  exact (proj1 (Forall_forall _ _) F _ I).
Qed.

Lemma sound_integer : forall m k n, sound m -> get_integer_from_dict m k = Ok n -> usize n.
Proof.
  intros m k n S H. unfold get_integer_from_dict, rbind in H.
  destruct (get_dict_content m) as [d|] eqn:G; [|discriminate].
  destruct (hm_get d k) as [v|] eqn:E; [|discriminate]. pose proof (sound_get _ _ _ _ S G E) as Sv.
  destruct v; try discriminate. cbn in H. injection H as ->. now inversion Sv.
Qed.
Lemma sound_bytes : forall m k s, sound m -> get_bytes_from_dict m k = Ok s -> octets s.
Proof.
  intros m k n S H. unfold get_bytes_from_dict, rbind in H.
  destruct (get_dict_content m) as [d|] eqn:G; [|discriminate].
  destruct (hm_get d k) as [v|] eqn:E; [|discriminate]. pose proof (sound_get _ _ _ _ S G E) as Sv.
  destruct v; try discriminate. cbn in H. injection H as ->. now inversion Sv.
Qed.
Lemma sound_list_get : forall m k l, sound m -> get_list_from_dict m k = Ok l -> Forall sound l.
Proof.
  intros m k n S H. unfold get_list_from_dict, rbind in H.
  destruct (get_dict_content m) as [d|] eqn:G; [|discriminate].
  destruct (hm_get d k) as [v|] eqn:E; [|discriminate]. pose proof (sound_get _ _ _ _ S G E) as Sv.
  destruct v; try discriminate. cbn in H. injection H as ->. now inversion Sv.
Qed.
Lemma string_content_text : forall m s, get_string_content m = Ok s -> text s.
Proof.
  intros m s H. destruct m; try discriminate. cbn in H. destruct (utf8_valid s0) eqn:U; [|discriminate].
  injection H as <-. exact U.
Qed.
Lemma string_dict_text : forall m k s, get_string_from_dict m k = Ok s -> text s.
Proof.
  intros m k s H. unfold get_string_from_dict, rbind in H.
  destruct (get_dict_content m) as [d|]; [|discriminate]. destruct (hm_get d k) as [v|]; [|discriminate].
  eapply string_content_text; eauto.
Qed.
Lemma path_text : forall l p, path_components l = Ok p -> Forall text p.
Proof.
  induction l as [|a l IH]; intros p H; cbn [path_components] in H; [injection H as <-; constructor|].
  unfold rbind in H. destruct (get_string_content a) as [s|] eqn:S; [|discriminate].
  destruct (path_components l) as [r|]; [|discriminate]. injection H as <-.
  constructor; [eapply string_content_text; eauto|auto].
Qed.

Lemma file_sound : forall m f, sound m -> file_from_metainfo m = Ok f -> rust_file f.
Proof.
  intros m f S H. unfold file_from_metainfo, rbind in H.
  destruct (get_integer_from_dict m _) as [n|] eqn:N; [|discriminate].
  destruct (get_list_from_dict m _) as [l|]; [|discriminate].
  destruct (path_components l) as [p|] eqn:P; [|discriminate]. injection H as <-.
  split; cbn; [eapply path_text; eauto|eapply sound_integer; eauto].
Qed.

Lemma flat_files_sound : forall l, Forall sound l -> Forall rust_file (flat_files l).
Proof.
  induction l as [|m l IH]; intros F; [constructor|]. unfold flat_files in *. cbn [flat_map].
  inversion F; subst. apply Forall_app. split; auto.
  destruct (file_from_metainfo m) as [f|] eqn:E; constructor; [|constructor].
  eapply file_sound; eauto.
Qed.

Lemma info_sound : forall b i, octets b -> info_from_bytes b = Ret (Ok i) -> rust_info i.
Proof.
  intros b i Hb H. unfold info_from_bytes in H. apply obind_ret in H as (r & D & H).
  destruct r as [[m e]|]; [|discriminate].
  assert (S : sound m) by (eapply (proj1 (decode_sound b Hb _)); exact D).
  injection H as H. unfold info_from_metainfo, rbind, ie_meta in H.
  destruct (get_bytes_from_dict m _) as [ps|] eqn:P; [|discriminate].
  destruct (get_integer_from_dict m (s2b "piece length")) as [pl|] eqn:L; [|discriminate].
  destruct (get_string_from_dict m _) as [nm|] eqn:N; [|discriminate]. injection H as <-.
  unfold rust_info. cbn [i_files i_length i_name i_piece_length i_pieces]. repeat split.
  - intros l E. destruct (get_list_from_dict m (s2b "files")) as [x|] eqn:X; [|discriminate].
    cbn in E. injection E as <-. apply flat_files_sound. eapply sound_list_get; eauto.
  - intros n E. destruct (get_integer_from_dict m (s2b "length")) as [x|] eqn:X; [|discriminate].
    cbn in E. injection E as <-. eapply sound_integer; eauto.
  - eapply string_dict_text; eauto.
  - eapply sound_integer; eauto.
  - eapply sound_bytes; eauto.
Qed.

Lemma get_info_sound : forall fuel net pid ih ep i,
  (forall s, net = Some s -> octets (incoming s)) ->
  get_info fuel net pid ih ep = Ret (Ok i) -> rust_info i.
Proof.
  intros fuel net pid ih ep i Hs H. unfold get_info, orbind in H.
  destruct (connect net ep) as [[s|]| |] eqn:C; try discriminate.
  assert (O : octets (incoming s)).
  { apply Hs. unfold connect in C. destruct (parse_socket_addr ep); [|discriminate].
    destruct net; [|discriminate]. now injection C as ->. }
  apply obind_ret in H as ([r x1] & I & H). apply init_peer_octets in I; [|exact O].
  destruct r as [u|]; [|discriminate]. apply obind_ret in H as ([d y] & D & H).
  destruct d as [b|]; [|discriminate]. apply download_info_octets in D; auto.
  apply obind_ret in H as (r & F & H). destruct r as [i'|]; [|discriminate]. injection H as ->.
  exact (info_sound b i D F).
Qed.

(** ** The file *)

Lemma loc_eqb_refl : forall l, loc_eqb l l = true.
Proof. induction l as [|x l IH]; cbn; auto. now rewrite bytes_eqb_refl. Qed.

Lemma loc_eqb_sound : forall a b, loc_eqb a b = true -> a = b.
Proof.
  induction a as [|x a IH]; intros [|y b] H; cbn in H; try discriminate; auto.
  apply andb_prop in H as [H1 H2]. apply bytes_eqb_eq in H1. subst. f_equal. auto.
Qed.

Lemma set_same : forall d l n, fs_set d l n l = Some n.
Proof. intros. unfold fs_set. now rewrite loc_eqb_refl. Qed.
Lemma set_other : forall d l n l', l <> l' -> fs_set d l n l' = d l'.
Proof.
  intros d l n l' H. unfold fs_set. destruct (loc_eqb l l') eqn:E; auto. apply loc_eqb_sound in E. congruence.
Qed.



(** ASCII names make an ASCII text. *)
Lemma ascii_app : forall a b, ascii a -> ascii b -> ascii (a ++ b).
Proof. intros. apply Forall_app. auto. Qed.
Lemma ascii_string : forall s, ascii s -> ascii (js_string s).
Proof.
  intros s H. unfold js_string. apply ascii_app; [repeat constructor|]. apply ascii_app; [|repeat constructor].
  induction H as [|b s Hb Hs IH]; cbn [flat_map]; [constructor|]. apply ascii_app; auto. now apply js_escape_ascii.
Qed.
Lemma ascii_s2b : forall s, text (s2b s) -> forallb (fun b => (b <? 128)%N) (s2b s) = true -> ascii (s2b s).
Proof.
  intros s _ H. apply Forall_forall. intros b Hb. rewrite forallb_forall in H. now apply N.ltb_lt, H.
Qed.
Lemma ascii_commas : forall l, Forall ascii l -> ascii (js_commas l).
Proof.
  induction l as [|x l IH]; intros F; [constructor|]. destruct l as [|y l]; [exact (Forall_inv F)|].
  rewrite js_commas_cons. apply ascii_app; [exact (Forall_inv F)|].
  apply ascii_app; [repeat constructor|]. apply IH. exact (Forall_inv_tail F).
Qed.
Lemma ascii_array : forall l, Forall ascii l -> ascii (js_array l).
Proof.
  intros l F. unfold js_array. apply ascii_app; [repeat constructor|]. apply ascii_app; [|repeat constructor].
  now apply ascii_commas.
Qed.
Lemma ascii_object : forall l, Forall ascii l -> ascii (js_object l).
Proof.
  intros l F. unfold js_object. apply ascii_app; [repeat constructor|]. apply ascii_app; [|repeat constructor].
  now apply ascii_commas.
Qed.
Lemma ascii_member : forall k u, ascii k -> ascii u -> ascii (js_member k u).
Proof.
  intros k u Hk Hu. unfold js_member. apply ascii_app; [now apply ascii_string|].
  apply ascii_app; [repeat constructor|exact Hu].
Qed.
Lemma ascii_map : forall A (f : A -> bytes) l, (forall x, In x l -> ascii (f x)) -> Forall ascii (map f l).
Proof. intros A f l H. apply Forall_forall. intros y Hy. apply in_map_iff in Hy as (x & <- & Hx). auto. Qed.
Lemma ascii_dec : forall n, ascii (dec n).
Proof.
  intros n. destruct (dec_canon n) as [(F & _) _]. eapply Forall_impl; [|exact F].
  unfold digit. intros; lia.
Qed.

Lemma Forall_two : forall A (P : A -> Prop) a b, P a -> P b -> Forall P [a; b].
Proof. auto. Qed.
Lemma Forall_five : forall A (P : A -> Prop) a b c d e, P a -> P b -> P c -> P d -> P e -> Forall P [a; b; c; d; e].
Proof. auto 10. Qed.

Lemma ascii_js_info : forall i, ascii_info i -> ascii (js_info i).
Proof.
  intros i [Hn Hf]. apply ascii_object.
  apply Forall_five; (apply ascii_member; [apply ascii_s2b; reflexivity|]).
  - destruct (i_files i) as [l|]; [|apply ascii_s2b; reflexivity]. cbn [js_option]. apply ascii_array, ascii_map.
    intros f Hi. specialize (Hf l f eq_refl Hi). apply ascii_object.
    apply Forall_two; (apply ascii_member; [apply ascii_s2b; reflexivity|]).
    + apply ascii_array, ascii_map. intros s Hs. apply ascii_string. exact (proj1 (Forall_forall _ _) Hf s Hs).
    + apply ascii_dec.
  - destruct (i_length i); [apply ascii_dec|apply ascii_s2b; reflexivity].
  - now apply ascii_string.
  - apply ascii_dec.
  - apply ascii_array, ascii_map. intros. apply ascii_dec.
Qed.

Lemma save_cut : forall i d l k r d', rust_info i -> k < List.length (js_info i) ->
  save k d l i = Ret (r, d') ->
  (exists e, r = Err e) /\
  (from_file d' l = Panic \/ (exists e, from_file d' l = Ret (Err e)) /\ ~ ascii_info i).
Proof.
  intros i d l k r d' H Hk S. unfold save in S. rewrite (proj2 (Nat.leb_gt _ _) Hk) in S.
  assert (E : exists e, (Err e : result unit info_error, fs_set d l (NFile (firstn k (js_info i)))) = (r, d')).
  { exists (IENoInfoFile (join_slash l)). destruct (d l) as [[|c]|]; try discriminate; now injection S as <- <-. }
  destruct E as [e E]. injection E as <- <-. split; [eauto|].
  unfold from_file. rewrite set_same. destruct (utf8_valid (firstn k (js_info i))) eqn:U.
  - left. now rewrite json_cut.
  - right. split; [eauto|]. intros A. apply ascii_js_info in A.
    rewrite <- (firstn_skipn k) in A. apply Forall_app in A as [A _]. apply ascii_text in A. congruence.
Qed.

(** ** collect_info *)

Lemma walk_downloads : forall d cwd d1 at_, walk_create d cwd [dot; downloads] = Some (d1, at_) ->
  at_ = cwd ++ [downloads] /\ d1 (cwd ++ [downloads]) = Some NDir /\
  (forall l, l <> cwd ++ [downloads] -> d1 l = d l) /\
  (d (cwd ++ [downloads]) = Some NDir -> d1 = d).
Proof.
  intros d cwd d1 at_ H. cbn [walk_create] in H.
  change (bytes_eqb dot [] || bytes_eqb dot dot) with true in H. cbv iota in H.
  change (bytes_eqb downloads [] || bytes_eqb downloads dot) with false in H.
  change (bytes_eqb downloads dotdot) with false in H. cbv iota in H.
  destruct (d (cwd ++ [downloads])) as [[|c]|] eqn:E; try discriminate; injection H as <- <-.
  - repeat split; auto.
  - repeat split; auto.
    + apply set_same.
    + intros l Hl. apply set_other. congruence.
    + discriminate.
Qed.

Lemma walk_downloads_again : forall d cwd, d (cwd ++ [downloads]) = Some NDir ->
  walk_create d cwd [dot; downloads] = Some (d, cwd ++ [downloads]).
Proof.
  intros d cwd H. cbn [walk_create].
  change (bytes_eqb dot [] || bytes_eqb dot dot) with true. cbv iota.
  change (bytes_eqb downloads [] || bytes_eqb downloads dot) with false.
  change (bytes_eqb downloads dotdot) with false. cbv iota. now rewrite H.
Qed.

Lemma cache_loc_ne : forall cwd ih, cache_loc cwd ih <> cwd ++ [downloads].
Proof.
  intros cwd ih H. apply (f_equal (@List.length bytes)) in H. unfold cache_loc in H.
  rewrite !app_length in H. cbn in H. lia.
Qed.

(** what one call does: the file after it, and where the result came from *)
Lemma collect_inv : forall accept fuel cwd d net pid ih ep i d',
  collect_info accept fuel cwd d net pid ih ep = Ret (Some i, d') ->
  d' (cwd ++ [downloads]) = Some NDir /\
  (forall l, l <> cwd ++ [downloads] -> l <> cache_loc cwd ih -> d' l = d l) /\
  ((exists c, d (cache_loc cwd ih) = Some (NFile c) /\ utf8_valid c = true /\ info_from_json c = Some i /\
  d' (cache_loc cwd ih) = Some (NFile c)) \/
   (get_info fuel net pid ih ep = Ret (Ok i) /\
  d' (cache_loc cwd ih) = Some (NFile (firstn accept (js_info i))))).
Proof.
  intros accept fuel cwd d net pid ih ep i d' H. unfold collect_info in H.
  destruct (walk_create d cwd [dot; downloads]) as [[d1 at_]|] eqn:W; [|discriminate].
  destruct (walk_downloads _ _ _ _ W) as (_ & Dd & Do & _).
  pose proof (cache_loc_ne cwd ih) as NE.
  apply obind_ret in H as (c & F & H). destruct c as [i0|e].
  - injection H as <- <-. split; [exact Dd|]. split; [auto|]. left.
    unfold from_file in F. rewrite <- (Do _ NE).
    destruct (d1 (cache_loc cwd ih)) as [[|c]|]; try discriminate.
    destruct (utf8_valid c) eqn:U; [|discriminate]. destruct (info_from_json c) eqn:J; [|discriminate].
    injection F as ->. exists c. auto.
  - apply obind_ret in H as (g & G & H). destruct g as [i0|e0]; [|discriminate].
    apply obind_ret in H as ([r d2] & S & H). injection H as <- <-.
    assert (E : d2 = fs_set d1 (cache_loc cwd ih) (NFile (firstn accept (js_info i0)))).
    { unfold save in S. destruct (d1 (cache_loc cwd ih)) as [[|c]|]; try discriminate; now injection S as <- <-. }
    subst d2. split; [rewrite set_other; auto|]. split.
    + intros l L1 L2. rewrite set_other by congruence. auto.
    + right. split; auto. apply set_same.
Qed.

Lemma c51_restart : forall accept fuel cwd d net pid ih ep i d',
  (forall s, net = Some s -> octets (incoming s)) ->
  collect_info accept fuel cwd d net pid ih ep = Ret (Some i, d') ->
  (List.length (js_info i) <= accept)%nat ->
  forall accept2 fuel2 net2 pid2 ep2, collect_info accept2 fuel2 cwd d' net2 pid2 ih ep2 = Ret (Some i, d').
Proof.
  intros accept fuel cwd d net pid ih ep i d' O H A accept2 fuel2 net2 pid2 ep2.
  destruct (collect_inv _ _ _ _ _ _ _ _ _ _ H) as (Dd & _ & Hc).
  assert (F : from_file d' (cache_loc cwd ih) = Ret (Ok i)).
  { unfold from_file. destruct Hc as [(c & _ & U & J & ->)|[G ->]].
    - now rewrite U, J.
    - rewrite firstn_all2 by exact A. apply get_info_sound in G; auto.
      rewrite (info_text i G). now rewrite json_round_trip. }
  unfold collect_info. rewrite (walk_downloads_again _ _ Dd). rewrite F. reflexivity.
Qed.

Lemma c52_restart : forall accept fuel cwd d net pid ih ep i d',
  (forall s, net = Some s -> octets (incoming s)) ->
  d (cache_loc cwd ih) = None ->
  collect_info accept fuel cwd d net pid ih ep = Ret (Some i, d') ->
  (accept < List.length (js_info i))%nat -> ascii_info i ->
  forall accept2 fuel2 net2 pid2 ep2, collect_info accept2 fuel2 cwd d' net2 pid2 ih ep2 = Panic.
Proof.
  intros accept fuel cwd d net pid ih ep i d' O N H A AI accept2 fuel2 net2 pid2 ep2.
  destruct (collect_inv _ _ _ _ _ _ _ _ _ _ H) as (Dd & _ & Hc).
  destruct Hc as [(c & E & _)|[G E]]; [congruence|]. apply get_info_sound in G; auto.
  unfold collect_info. rewrite (walk_downloads_again _ _ Dd). unfold from_file. rewrite E.
  assert (U : utf8_valid (firstn accept (js_info i)) = true).
  { apply ascii_js_info in AI. rewrite <- (firstn_skipn accept) in AI. apply Forall_app in AI as [AI _].
    now apply ascii_text. }
  rewrite U, json_cut by auto. reflexivity.
Qed.

Lemma save_ok_all : forall accept d l i d', save accept d l i = Ret (Ok tt, d') ->
  d' = fs_set d l (NFile (js_info i)).
Proof.
  intros accept d l i d' S. unfold save in S.
  destruct (List.length (js_info i) <=? accept)%nat eqn:L.
  - apply Nat.leb_le in L. rewrite firstn_all2 in S by exact L.
    destruct (d l) as [[|c]|]; try discriminate; now injection S as <-.
  - destruct (d l) as [[|c]|]; discriminate.
Qed.

Lemma c51_reads_back : forall accept d l i d', rust_info i -> save accept d l i = Ret (Ok tt, d') ->
  from_file d' l = Ret (Ok i) /\ same_elsewhere [l] d d'.
Proof.
  intros accept d l i d' H S. apply save_ok_all in S. subst d'. split.
  - unfold from_file. rewrite set_same, (info_text i H). now rewrite json_round_trip.
  - intros l' N. apply set_other. intros ->. apply N. now left.
Qed.

Lemma c51_spaces : forall d l i ws, rust_info i ->
  Forall (fun b => In b [32; 10; 9; 13]%N) ws ->
  d l = Some (NFile (js_info i ++ ws)) -> from_file d l = Ret (Ok i).
Proof.
  intros d l i ws H W E. unfold from_file. rewrite E.
  assert (A : ascii ws).
  { eapply Forall_impl; [|exact W]. cbn [In]. intros b Hb. repeat destruct Hb as [<-|Hb]; try lia. }
  rewrite utf8_app by exact (info_text i H). rewrite (ascii_text ws A).
  destruct (reads_info i H) as [f Hf]. specialize (Hf ws). unfold info_from_json.
  rewrite (js_value_fuel _ _ _ _ Hf) by (right; intros n; discriminate).
  assert (S : skip_ws ws = []).
  { clear - W. induction W as [|b ws Hb W IH]; [reflexivity|]. cbn [skip_ws].
    assert (js_ws b = true) as -> by (cbn [In] in Hb; repeat destruct Hb as [<-|Hb]; try reflexivity; contradiction).
    exact IH. }
  rewrite S. now rewrite json_info_ast by apply H.
Qed.

Lemma c51_elsewhere : forall accept fuel cwd d net pid ih ep r d',
  collect_info accept fuel cwd d net pid ih ep = Ret (r, d') ->
  same_elsewhere [cwd ++ [s2b "downloads"]; in_downloads cwd (encode_binary ih)] d d'.
Proof.
  intros accept fuel cwd d net pid ih ep r d' H l N.
  change (in_downloads cwd (encode_binary ih)) with (cache_loc cwd ih) in N.
  change (s2b "downloads") with downloads in N.
  destruct r as [i|].
  - destruct (collect_inv _ _ _ _ _ _ _ _ _ _ H) as (_ & D & _). apply D; intros ->; apply N; cbn; auto.
  - unfold collect_info in H.
    destruct (walk_create d cwd [dot; downloads]) as [[d1 at_]|] eqn:W; [|discriminate].
    destruct (walk_downloads _ _ _ _ W) as (_ & _ & Do & _).
    apply obind_ret in H as (c & F & H). destruct c; [discriminate|].
    apply obind_ret in H as (g & G & H). destruct g.
    + apply obind_ret in H as ([? ?] & _ & H). discriminate.
    + injection H as <-. apply Do. intros ->. apply N. now left.
Qed.

Lemma c53 : forall i ih cwd d accept fuel net pid ep, rust_info i ->
  d (cwd ++ [s2b "downloads"]) = Some NDir ->
  d (in_downloads cwd (encode_binary ih)) = Some (NFile (js_info i)) ->
  collect_info accept fuel cwd d net pid ih ep = Ret (Some i, d).
Proof.
  intros i ih cwd d accept fuel net pid ep H D E. unfold collect_info.
  rewrite (walk_downloads_again d cwd D). unfold from_file.
  change (cache_loc cwd ih) with (in_downloads cwd (encode_binary ih)). rewrite E, (info_text i H).
  now rewrite json_round_trip.
Qed.

Lemma c53_own_file : forall cwd ih ih', octets ih -> octets ih' ->
  in_downloads cwd (encode_binary ih) = in_downloads cwd (encode_binary ih') -> ih = ih'.
Proof.
  intros cwd ih ih' H H' E. unfold in_downloads in E. apply app_inv_head in E. injection E as E.
  now apply ProofTracker.c23_inj.
Qed.
