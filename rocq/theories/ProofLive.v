(** ProofLive: proofs for property C82 *)
From Verif Require Import Base ModelBencode ModelMessages ModelTorrent ModelTracker ModelStream ModelPeer ModelLive ProofBase ProofStream ProofPeer ProofSession.

(** ** Reading depends on the ticks that are used only *)
Definition local {A} (n : nat) (f : stream -> A * stream) : Prop := forall s l a s', f (given s l) = (a, s') ->
  (List.length l <= n + List.length (st_sched s'))%nat /\
  (st_sched s' <> [] -> exists pre, l = pre ++ st_sched s' /\ forall tail, f (given s (pre ++ tail)) = (a, given s' tail)).

Lemma given_given : forall s l l', given (given s l) l' = given s l'.
Proof. reflexivity. Qed.
Lemma given_self : forall s, given s (st_sched s) = s.
Proof. destruct s; reflexivity. Qed.

Lemma local_ret : forall A (a : A), local 0 (fun s => (a, s)).
Proof.
  intros A a s l b s' H. injection H as <- <-. cbn. split; [lia|]. intros _. exists []. split; [reflexivity|]. reflexivity.
Qed.

Lemma local_bind : forall A B n m (f : stream -> A * stream) (g : A -> stream -> B * stream), local n f -> (forall a, local m (g a)) ->
  local (n + m) (fun s => let (a, s1) := f s in g a s1).
Proof.
  intros A B n m f g F G s l b s' H. destruct (f (given s l)) as [a s1] eqn:E.
  destruct (F _ _ _ _ E) as [L1 P1]. pose proof H as H'. rewrite <- (given_self s1) in H'. destruct (G a _ _ _ _ H') as [L2 P2].
  split; [lia|]. intros NE. destruct (P2 NE) as [pre2 [E2 Q2]].
  destruct P1 as [pre1 [E1 Q1]]; [rewrite E2; intros X; apply app_eq_nil in X; tauto|].
  exists (pre1 ++ pre2). rewrite <- app_assoc, <- E2. split; [exact E1|]. intros tail. rewrite <- app_assoc, Q1.
  rewrite <- (given_given s1 (st_sched s1)), given_self. apply Q2.
Qed.

Lemma local_le : forall A n m (f : stream -> A * stream), local n f -> (n <= m)%nat -> local m f.
Proof. intros A n m f F L s l a s' H. destruct (F _ _ _ _ H). split; [lia|auto]. Qed.

Lemma local_ext : forall A n (f g : stream -> A * stream), (forall s, f s = g s) -> local n f -> local n g.
Proof.
  intros A n f g E F s l a s' H. rewrite <- E in H. destruct (F _ _ _ _ H) as [L P]. split; [exact L|]. intros NE.
  destruct (P NE) as [pre [E1 Q]]. exists pre. split; [exact E1|]. intros tail. rewrite <- E. apply Q.
Qed.

Lemma local_env : local 1 env_step.
Proof.
  intros s l a s' H. unfold env_step in *. destruct l as [|t l]; cbn in H |- *.
  - injection H as <- <-. cbn. split; [lia|]. intros X. contradiction.
  - destruct t; injection H as <- <-; cbn; (split; [lia|]); intros _;
      match goal with |- exists pre, ?t :: _ = _ /\ _ => exists [t] end; split; reflexivity.
Qed.

Lemma local_peek : forall n, local 1 (peek n).
Proof.
  intros n. apply (local_ext _ _ (fun s => let (failed, s1) := env_step s in
    (fun (f : bool) (s1 : stream) => (if f then None else match st_avail s1 with [] => if st_closed s1 then Some [] else None | _ => Some (takeN n (st_avail s1)) end, s1)) failed s1)).
  - intros s. unfold peek. destruct (env_step s) as [[|] s1]; [reflexivity|]. destruct (st_avail s1); reflexivity.
  - apply (local_le _ (1 + 0)); [|lia]. apply local_bind; [apply local_env|]. intros f s l a s' H. injection H as <- <-. cbn. split; [lia|].
    intros _. exists []. split; reflexivity.
Qed.

Lemma local_read : forall n, local 1 (read n).
Proof.
  intros n. apply (local_ext _ _ (fun s => let (failed, s1) := env_step s in
    (fun (f : bool) (s1 : stream) => if f then (None, s1) else match st_avail s1 with [] => (if st_closed s1 then Some [] else None, s1)
       | _ => (Some (takeN n (st_avail s1)), set_avail s1 (dropN n (st_avail s1))) end) failed s1)).
  - intros s. reflexivity.
  - apply (local_le _ (1 + 0)); [|lia]. apply local_bind; [apply local_env|]. intros f s l a s' H. cbn [given st_avail st_closed] in *.
    destruct f; [injection H as <- <-; cbn; split; [lia|]; intros _; exists []; split; reflexivity|].
    destruct (st_avail s) eqn:E; injection H as <- <-; cbn; (split; [lia|]); intros _; exists []; (split; [reflexivity|]); intros tail; rewrite ?E; reflexivity.
Qed.

Lemma local_has : local 1 has_messages.
Proof.
  apply (local_le _ (1 + 0)); [|lia].
  apply (local_bind _ _ 1 0 (peek 1) (fun r s1 => (match r with Some (_ :: _) => true | _ => false end, s1))); [apply local_peek|].
  intros r. apply local_ret.
Qed.

Lemma local_peek_and_read : forall len, local 2 (peek_and_read len).
Proof.
  intros len. unfold peek_and_read. apply (local_bind _ _ 1 1); [apply local_peek|]. intros pk.
  destruct (_ =? len)%N; [|apply (local_le _ 0); [apply local_ret|lia]].
  apply (local_ext _ _ (fun s => let (rd, s2) := read len s in
    (fun rd s2 => (if (lenN (match rd with Some got => got | None => [] end) =? len)%N then Some (match rd with Some got => got | None => [] end) else None, s2)) rd s2)).
  - intros s. destruct (read len s) as [rd s2]. destruct (_ =? len)%N; reflexivity.
  - apply (local_le _ (1 + 0)); [|lia]. apply local_bind; [apply local_read|]. intros rd. apply local_ret.
Qed.

Lemma local_body : forall t len, local (2 * t) (read_body t len).
Proof.
  induction t as [|t IH]; intros len; [apply local_ret|]. cbn [read_body].
  apply (local_le _ (2 + 2 * t)); [|lia]. apply (local_bind _ _ 2 (2 * t) (peek_and_read len) (fun r s1 => match r with Some body => (Some body, s1) | None => read_body t len s1 end));
    [apply local_peek_and_read|].
  intros [b|]; [apply (local_le _ 0); [apply local_ret|lia]|apply IH].
Qed.

Lemma local_frame : local 80 read_frame.
Proof.
  unfold read_frame. apply (local_le _ (1 + 79)); [|lia].
  apply (local_bind _ _ 1 79 (read 4)); [apply local_read|]. intros [got|]; [|apply (local_le _ 0); [apply local_ret|lia]].
  apply (local_bind _ _ 1 78 (read 1)); [apply local_read|]. intros [got1|]; [|apply (local_le _ 0); [apply local_ret|lia]].
  destruct (_ =? 0)%N; [apply (local_le _ 0); [apply local_ret|lia]|].
  apply (local_ext _ _ (fun s => let (r, s3) := read_body 39 (from_be (overlay [0; 0; 0; 0]%N got) - 1) s in
    (fun r s3 => (match r with Some body => Some (body, hd 0%N (overlay [0%N] got1), (from_be (overlay [0; 0; 0; 0]%N got) - 1)%N) | None => None end, s3)) r s3)).
  - intros s. destruct (read_body 39 _ s) as [[b|] s3]; reflexivity.
  - apply (local_le _ (78 + 0)); [|lia]. apply local_bind; [apply (local_body 39)|]. intros r. apply local_ret.
Qed.

Lemma local_stream : local READS read_stream.
Proof.
  unfold read_stream, READS. apply (local_bind _ _ 1 81 has_messages); [apply local_has|]. intros b.
  destruct (negb b); [apply (local_le _ 0); [apply local_ret|lia]|].
  apply (local_bind _ _ 1 80 (peek 68)); [apply local_peek|]. intros [buffer|]; [|apply local_frame].
  destruct (_ && _); [|apply local_frame].
  apply (local_ext _ _ (fun s => let (r, s3) := read 68 s in
    (fun r s3 => (match r with Some got => Some (overlay buffer got, 19%N, 68%N) | None => None end, s3)) r s3)).
  - intros s. destruct (read 68 s) as [[b'|] s3]; reflexivity.
  - apply (local_le _ (1 + 0)); [|lia]. apply local_bind; [apply local_read|]. intros r. apply local_ret.
Qed.

(** ** Peers with another future *)
Lemma apply_facing : forall x l m, apply_message (facing x l) m = facing (apply_message x m) l.
Proof.
  intros x l m. unfold apply_message, apply_content.
  repeat match goal with |- context [if (msg_id m =? ?k)%N then _ else _] => destruct (msg_id m =? k)%N end; try reflexivity;
    destruct (msg_content m); try reflexivity; destruct (ex_is_handshake _); reflexivity.
Qed.
Lemma write_given : forall s l b, write_all (given s l) b = (fst (write_all s b), given (snd (write_all s b)) l).
Proof. intros s l b. unfold write_all. cbn [given st_wsched]. destruct (st_wsched s) as [|[n|] w]; reflexivity. Qed.
Lemma send_facing : forall x l m, send_message (facing x l) m = facing (send_message x m) l.
Proof.
  intros x l m. unfold send_message, facing, write_stream. cbn [with_stream p_stream]. rewrite write_given. reflexivity.
Qed.
Definition oblivious (next : peer -> N -> outcome peer) : Prop := forall x l n, next (facing x l) n = (y <- next x n ;; Ret (facing y l)).
Lemma next_block_oblivious : forall p bs i total plen, oblivious (next_block p bs i total plen).
Proof.
  intros p bs i total plen x l n. unfold next_block. destruct (block_request _ _ _ _ _ _) as [[[a b] c]| |]; cbn [obind]; [|reflexivity..].
  rewrite send_facing. reflexivity.
Qed.
Lemma next_piece_oblivious : oblivious next_piece.
Proof.
  intros x l n. unfold next_piece, get_extension_id_by_name. cbn [facing with_stream p_extensions].
  destruct (hm_get _ _); cbn [obind]; [|reflexivity]. destruct (new_metadata _ _); cbn [obind]; [|reflexivity..]. rewrite send_facing. reflexivity.
Qed.
Lemma request_facing : forall next b x l, oblivious next ->
  request_next_message next b (facing x l) = ('(b2, y) <- request_next_message next b x ;; Ret (b2, facing y l)).
Proof.
  intros next b x l O. unfold request_next_message. destruct (_ || _); [reflexivity|]. rewrite O. destruct (next x _); reflexivity.
Qed.

Section Adequacy.
  Variable R : Type.
  Variable hear : R -> bytes -> R.
  Variable say : R -> tick * R.

  Lemma says_length : forall n r, List.length (says R say n r) = n.
  Proof. induction n as [|n IH]; intros r; cbn [says List.length]; [reflexivity|]. now rewrite IH. Qed.
  Lemma says_firstn : forall n k r, (k <= n)%nat -> firstn k (says R say n r) = says R say k r.
  Proof.
    induction n as [|n IH]; intros [|k] r L; try reflexivity; [lia|]. cbn [says firstn]. now rewrite IH by lia.
  Qed.

  (** The same outcome with the future [l] still to come. *)
  Definition then_facing {A} (o : outcome (A * peer * R)) (l : list tick) : outcome (A * peer) :=
    '(a, y, _) <- o ;; Ret (a, facing y l).

  (** One attempt to read: the ticks used are what the remote end says. *)
  Lemma live_read : forall x r, exists k,
    (forall tail, read_message (facing x (says R say k r ++ tail)) = then_facing (read_message_l R say x r) tail) /\
    (forall m x1 r1, read_message_l R say x r = Ret (m, x1, r1) -> r1 = said R say k r /\ st_sched (p_stream x1) = []).
  Proof.
    intros x r. unfold read_message_l. set (l := says R say (S READS) r).
    destruct (read_stream (given (p_stream x) l)) as [o s1] eqn:E. destruct (local_stream _ _ _ _ E) as [L P].
    unfold l in L. rewrite says_length in L. destruct P as [pre [EQ P]]; [intros X; rewrite X in L; cbn [List.length] in L; lia|].
    assert (LP : List.length pre = (S READS - List.length (st_sched s1))%nat)
      by (apply (f_equal (@List.length _)) in EQ; unfold l in EQ; rewrite says_length, app_length in EQ; lia).
    assert (PRE : pre = says R say (List.length pre) r)
      by (rewrite <- (says_firstn (S READS)) by (rewrite LP; lia); fold l; rewrite EQ, firstn_app, firstn_all, Nat.sub_diag; cbn [firstn]; now rewrite app_nil_r).
    exists (List.length pre). rewrite <- PRE. unfold read_message, facing. cbn [with_stream p_stream]. split.
    - intros tail. rewrite P, E. destruct o as [[[body id] len]|]; [|reflexivity]. destruct (new_raw body len id); reflexivity.
    - intros m x1 r1. rewrite E. destruct o as [[[body id] len]|]; cbn [obind].
      + destruct (new_raw body len id); cbn [obind]; [|discriminate..]. intros H. injection H as <- <- <-. rewrite LP. auto.
      + intros H. injection H as <- <- <-. rewrite LP. auto.
  Qed.

  Lemma live_read_apply : forall x r, exists ticks, forall tail, read_and_apply (facing x (ticks ++ tail)) =
    ('(y, _) <- read_and_apply_l R say x r ;; Ret (facing y tail)).
  Proof.
    intros x r. destruct (live_read x r) as [k [H _]]. exists (says R say k r). intros tail. unfold read_and_apply, read_and_apply_l. rewrite H.
    destruct (read_message_l R say x r) as [[[[m|] x1] r1]| |]; cbn [obind then_facing]; rewrite ?apply_facing; reflexivity.
  Qed.

  Lemma live_rounds : forall n x r, exists ticks, forall tail, init_rounds n (facing x (ticks ++ tail)) = then_facing (init_rounds_l R say n x r) tail.
  Proof.
    induction n as [|n IH]; intros x r; [exists []; reflexivity|]. destruct (live_read_apply x r) as [t1 H1]. cbn [init_rounds init_rounds_l].
    destruct (read_and_apply_l R say x r) as [[x1 r1]| |] eqn:E.
    - destruct (is_ready x1) eqn:RD.
      + exists t1. intros tail. rewrite H1. cbn [obind]. change (is_ready (facing x1 tail)) with (is_ready x1). now rewrite RD.
      + destruct (IH x1 r1) as [t2 H2]. exists (t1 ++ t2). intros tail. rewrite <- app_assoc, H1. cbn [obind].
        change (is_ready (facing x1 (t2 ++ tail))) with (is_ready x1). rewrite RD. apply H2.
    - exists t1. intros tail. rewrite H1. reflexivity.
    - exists t1. intros tail. rewrite H1. reflexivity.
  Qed.

  Lemma live_init : forall x r, exists ticks, forall tail, init_peer (facing x (ticks ++ tail)) = then_facing (init_peer_l R hear say x r) tail.
  Proof.
    intros x r. unfold init_peer, init_peer_l. cbv zeta.
    set (x0 := send_message x (new_handshake (p_info_hash x) (p_id x))).
    assert (E0 : forall l, send_message (facing x l) (new_handshake (p_info_hash (facing x l)) (p_id (facing x l))) = facing x0 l)
      by (intros l; apply send_facing).
    destruct (live_read_apply x0 (told R hear x x0 r)) as [t1 H1].
    destruct (read_and_apply_l R say x0 _) as [[x1 r1]| |] eqn:E; [|exists t1; intros tail; rewrite E0, H1; reflexivity..].
    cbn [obind] in *. destruct (is_active x1) eqn:AC; cbn [negb].
    2: { exists t1. intros tail. rewrite E0, H1. cbn [obind]. change (is_active (facing x1 tail)) with (is_active x1). rewrite AC. reflexivity. }
    set (x2 := send_message x1 new_interested).
    assert (E2 : forall l, peer_send_metadata_handshake (facing x2 l) =
      (fst (peer_send_metadata_handshake x2), facing (snd (peer_send_metadata_handshake x2)) l)).
    { intros l. unfold peer_send_metadata_handshake, send_metadata_handshake_request, facing. cbn [with_stream p_stream].
      rewrite write_given. destruct (write_all (p_stream x2) metadata_handshake_bytes); reflexivity. }
    destruct (peer_send_metadata_handshake x2) as [ok x3]. cbn [fst snd] in E2.
    destruct ok; cbn [negb].
    - destruct (live_rounds 10 x3 (told R hear x2 x3 (told R hear x1 x2 r1))) as [t2 H2]. exists (t1 ++ t2). intros tail.
      rewrite <- app_assoc, E0, H1. cbn [obind]. change (is_active (facing x1 (t2 ++ tail))) with (is_active x1). rewrite AC. cbn [negb].
      rewrite send_facing. fold x2. rewrite E2. cbn [negb]. apply H2.
    - exists t1. intros tail. rewrite E0, H1. cbn [obind]. change (is_active (facing x1 tail)) with (is_active x1). rewrite AC. cbn [negb].
      rewrite send_facing. fold x2. rewrite E2. reflexivity.
  Qed.

  Lemma live_execute : forall filter next, oblivious next -> forall fuel x r b idle, exists ticks, forall tail,
    execute fuel filter next (facing x (ticks ++ tail)) b idle = then_facing (execute_l R hear say fuel filter next x r b idle) tail.
  Proof.
    intros filter next O. induction fuel as [|fuel IH]; intros x r b idle; [exists []; reflexivity|].
    cbn [execute execute_l]. destruct (live_read x r) as [k [H1 _]].
    destruct (read_message_l R say x r) as [[[m x1] r1]| |]; cbn [obind then_facing] in *; [|exists (says R say k r); intros tail; rewrite H1; reflexivity..].
    set (after := match m with Some m => (apply_message x1 m, push_message filter b m, 0%N) | None => (x1, b, idle) end).
    assert (EA : forall l, match m with Some m => (apply_message (facing x1 l) m, push_message filter b m, 0%N) | None => (facing x1 l, b, idle) end
      = (let '(y, c, j) := after in (facing y l, c, j))) by (intros l; unfold after; destruct m; rewrite ?apply_facing; reflexivity).
    destruct after as [[x2 b1] idle1]. cbv zeta in EA.
    destruct (is_full b1) eqn:F; [exists (says R say k r); intros tail; rewrite H1; cbn [obind]; rewrite EA, F; reflexivity|].
    destruct (is_choked x2) eqn:C.
    { exists (says R say k r). intros tail. rewrite H1. cbn [obind]. rewrite EA, F. change (is_choked (facing x2 tail)) with (is_choked x2). rewrite C. reflexivity. }
    assert (RQ : forall l, request_next_message next b1 (facing x2 l) = ('(b2, y) <- request_next_message next b1 x2 ;; Ret (b2, facing y l)))
      by (intros l; now apply request_facing).
    destruct (request_next_message next b1 x2) as [[b2 x3]| |]; cbn [obind] in *.
    2,3: exists (says R say k r); intros tail; rewrite H1; cbn [obind]; rewrite EA, F; change (is_choked (facing x2 tail)) with (is_choked x2); rewrite C, RQ; reflexivity.
    destruct (10 <? idle1 + 1)%N eqn:I.
    { exists (says R say k r). intros tail. rewrite H1. cbn [obind]. rewrite EA, F. change (is_choked (facing x2 tail)) with (is_choked x2). rewrite C, RQ. cbn [obind].
      rewrite I. reflexivity. }
    destruct (IH x3 (told R hear x2 x3 r1) b2 (idle1 + 1)%N) as [t2 H2]. exists (says R say k r ++ t2). intros tail. rewrite <- app_assoc, H1. cbn [obind].
    rewrite EA, F. change (is_choked (facing x2 (t2 ++ tail))) with (is_choked x2). rewrite C, RQ. cbn [obind]. rewrite I. apply H2.
  Qed.

  Lemma live_block : forall p fuel plen i total x r, exists ticks, forall tail,
    download_block p fuel plen i total (facing x (ticks ++ tail)) = then_facing (download_block_l R hear say p fuel plen i total x r) tail.
  Proof.
    intros p fuel plen i total x r. unfold download_block, download_block_l.
    destruct (real_piece_length _ _ _ _); cbn [obind]; [|exists []; reflexivity..]. destruct (step_by_len _ _); cbn [obind]; [|exists []; reflexivity..].
    apply live_execute, next_block_oblivious.
  Qed.
  Lemma live_info : forall fuel x r, exists ticks, forall tail,
    download_info fuel (facing x (ticks ++ tail)) = then_facing (download_info_l R hear say fuel x r) tail.
  Proof.
    intros fuel x r. unfold download_info, download_info_l. change (get_metadata_size (facing x _)) with (get_metadata_size x).
    destruct (step_by_len _ _); cbn [obind]; [|exists []; reflexivity..]. apply live_execute, next_piece_oblivious.
  Qed.

  Lemma live_download : forall sha1 p fuel ws r pid ep i idx, exists l, forall tail,
    download_l R hear say sha1 p fuel ws r pid ep i idx = download sha1 p fuel (Some (scheduled ws (l ++ tail))) pid ep i idx.
  Proof.
    intros sha1 p fuel ws r pid ep i idx. unfold download, download_l, connect. destruct (parse_socket_addr ep); [|exists []; reflexivity].
    cbn [orbind obind]. destruct (live_init (peer_new pid (fresh ws) (compute_info_hash sha1 i)) r) as [t1 H1].
    change (facing (peer_new pid (fresh ws) (compute_info_hash sha1 i)) ?l) with (peer_new pid (scheduled ws l) (compute_info_hash sha1 i)) in H1.
    destruct (init_peer_l R hear say _ r) as [[[[u|e] x1] r1]| |]; cbn [obind then_facing] in *.
    2-4: exists t1; intros tail; rewrite H1; reflexivity.
    destruct (get_total_length p i) as [total| |]; cbn [obind]; [|exists t1; intros tail; rewrite H1; reflexivity..].
    destruct (live_block p fuel (get_piece_length i) idx total x1 r1) as [t2 H2]. exists (t1 ++ t2). intros tail. rewrite <- app_assoc, H1. cbn [obind].
    rewrite H2. destruct (download_block_l _ _ _ _ _ _ _ _ _ _) as [[[d y] r2]| |]; reflexivity.
  Qed.

  Lemma live_get_info : forall fuel ws r pid ih ep, exists l, forall tail,
    get_info_l R hear say fuel ws r pid ih ep = get_info fuel (Some (scheduled ws (l ++ tail))) pid ih ep.
  Proof.
    intros fuel ws r pid ih ep. unfold get_info, get_info_l, connect. destruct (parse_socket_addr ep); [|exists []; reflexivity].
    cbn [orbind obind]. destruct (live_init (peer_new pid (fresh ws) ih) r) as [t1 H1].
    change (facing (peer_new pid (fresh ws) ih) ?l) with (peer_new pid (scheduled ws l) ih) in H1.
    destruct (init_peer_l R hear say _ r) as [[[[u|e] x1] r1]| |]; cbn [obind then_facing] in *.
    2-4: exists t1; intros tail; rewrite H1; reflexivity.
    destruct (live_info fuel x1 r1) as [t2 H2]. exists (t1 ++ t2). intros tail. rewrite <- app_assoc, H1. cbn [obind].
    rewrite H2. destruct (download_info_l _ _ _ _ _ _) as [[[d y] r2]| |]; reflexivity.
  Qed.
End Adequacy.
