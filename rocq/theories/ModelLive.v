(** ModelLive: sessions with a remote end that reacts to what it is sent (src/peer/{mod,buffer,manager}.rs, src/peer/download/*.rs) *)
From Verif Require Import Base ModelBencode ModelMessages ModelTorrent ModelTracker ModelStream ModelPeer.

(** In ModelStream what arrives is a schedule that is fixed in advance. Here the remote end is a program: [hear] is what it does with
    bytes that were written to it, [say] what happens just before the client reads or peeks, which may depend on all that was heard. *)
Section Remote.
  Variable R : Type.
  Variable hear : R -> bytes -> R.
  Variable say : R -> tick * R.

  (** The next [n] things the remote end says if nothing is written meanwhile, and its state then. *)
  Fixpoint says (n : nat) (r : R) : list tick :=
    match n with O => [] | S k => fst (say r) :: says k (snd (say r)) end.
  Fixpoint said (n : nat) (r : R) : R :=
    match n with O => r | S k => said k (snd (say r)) end.

  (** A socket, and a peer, with another future. *)
  Definition given (s : stream) (l : list tick) : stream :=
    {| st_avail := st_avail s; st_closed := st_closed s; st_sched := l; st_wsched := st_wsched s; st_sent := st_sent s |}.
  Definition facing (x : peer) (l : list tick) : peer := with_stream x (given (p_stream x) l).

  (** read_stream (stream.rs 100-146) reads or peeks at most so many times: has_messages, the peek at a handshake, the length, the id, and
      39 attempts of two operations each. *)
  Definition READS : nat := 82.

  (** peer/mod.rs 126-131: read_message. Nothing is written meanwhile, so what the remote end would say is known; what it has not been
      asked for by then it does not say. *)
  Definition read_message_l (x : peer) (r : R) : outcome (option message * peer * R) :=
    '(m, x1) <- read_message (facing x (says (S READS) r)) ;;
    Ret (m, facing x1 [], said (S READS - List.length (st_sched (p_stream x1))) r).

  (** The remote end after what was written between [x] and [x1]. *)
  Definition told (x x1 : peer) (r : R) : R :=
    hear r (skipn (List.length (st_sent (p_stream x))) (st_sent (p_stream x1))).

  (** manager.rs 87-90 and 101-104: read one message, if any, and apply it. *)
  Definition read_and_apply_l (x : peer) (r : R) : outcome (peer * R) :=
    '(m, x1, r1) <- read_message_l x r ;;
    Ret (match m with Some m => apply_message x1 m | None => x1 end, r1).

  (** manager.rs 100-110: up to [rounds] further messages. *)
  Fixpoint init_rounds_l (rounds : nat) (x : peer) (r : R) : outcome (result unit manager_error * peer * R) :=
    match rounds with
    | O => Ret (Err MEPeerNotReady, x, r)
    | S n =>
      '(x1, r1) <- read_and_apply_l x r ;;
      if is_ready x1 then Ret (Ok tt, x1, r1) else init_rounds_l n x1 r1
    end.

  (** manager.rs 85-111: init_peer. *)
  Definition init_peer_l (x : peer) (r : R) : outcome (result unit manager_error * peer * R) :=
    let x0 := send_message x (new_handshake (p_info_hash x) (p_id x)) in
    '(x1, r1) <- read_and_apply_l x0 (told x x0 r) ;;
    if negb (is_active x1) then Ret (Err MEHandshake, x1, r1)
    else
      let x2 := send_message x1 new_interested in
      let r2 := told x1 x2 r1 in
      let (ok, x3) := peer_send_metadata_handshake x2 in
      let r3 := told x2 x3 r2 in
      if negb ok then Ret (Err MEHandshakeMetadata, x3, r3)
      else init_rounds_l 10 x3 r3.

  (** download/mod.rs 58-87: execute, one unit of fuel per round of the loop. *)
  Fixpoint execute_l (fuel : nat) (filter : message -> bool) (next : peer -> N -> outcome peer)
    (x : peer) (r : R) (b : msg_buffer) (idle : N) : outcome (result bytes download_error * peer * R) :=
    match fuel with
    | O => OutOfFuel
    | S f =>
      '(m, x1, r1) <- read_message_l x r ;;
      let '(x2, b1, idle1) :=
        match m with
        | Some m => (apply_message x1 m, push_message filter b m, 0%N)
        | None => (x1, b, idle)
        end in
      if is_full b1 then Ret (Ok (assemble_content b1), x2, r1)
      else if is_choked x2 then Ret (Err ChokedPeer, x2, r1)
      else
        '(b2, x3) <- request_next_message next b1 x2 ;;
        let r2 := told x2 x3 r1 in
        let idle2 := (idle1 + 1)%N in
        if (10 <? idle2)%N then Ret (Err Idle, x3, r2)
        else execute_l f filter next x3 r2 b2 idle2
    end.

  (** download/mod.rs 26-34: Downloadable::Info. *)
  Definition download_info_l (fuel : nat) (x : peer) (r : R) : outcome (result bytes download_error * peer * R) :=
    capacity <- step_by_len (get_metadata_size x) INFO_PIECE_SIZE ;;
    execute_l fuel is_extension_data_message next_piece x r (buffer_new capacity) 0.

  (** download/mod.rs 35-45: Downloadable::Block. *)
  Definition download_block_l (p : profile) (fuel : nat) (piece_length piece_index total_length : N) (x : peer) (r : R)
    : outcome (result bytes download_error * peer * R) :=
    len <- real_piece_length p piece_length piece_index total_length ;;
    capacity <- step_by_len len BLOCK_SIZE ;;
    execute_l fuel is_request_message (next_block p BLOCK_SIZE piece_index total_length piece_length) x r (buffer_new capacity) 0.

  (** manager.rs 30-39: get_info, with a remote end that accepts the connection; writes do as [ws] says. *)
  Definition fresh (ws : list (option nat)) : stream :=
    {| st_avail := []; st_closed := false; st_sched := []; st_wsched := ws; st_sent := [] |}.
  Definition get_info_l (fuel : nat) (ws : list (option nat)) (r : R) (pid info_hash ep : bytes) : outcome (result info manager_error) :=
    s <-? connect (Some (fresh ws)) ep ;;
    '(i, x1, r1) <- init_peer_l (peer_new pid s info_hash) r ;;
    match i with
    | Err e => Ret (Err e)
    | Ok _ =>
      '(d, _, _) <- download_info_l fuel x1 r1 ;;
      match d with
      | Err e => Ret (Err (MEDownload e))
      | Ok b =>
        i <- info_from_bytes b ;;
        match i with
        | Ok i => Ret (Ok i)
        | Err e => Ret (Err (MEInfo e))
        end
      end
    end.

  Variable sha1 : bytes -> bytes.

  (** manager.rs 57-83: download. *)
  Definition download_l (p : profile) (fuel : nat) (ws : list (option nat)) (r : R) (pid ep : bytes) (i : info) (piece_idx : N)
    : outcome (result bytes manager_error) :=
    s <-? connect (Some (fresh ws)) ep ;;
    '(o, x1, r1) <- init_peer_l (peer_new pid s (compute_info_hash sha1 i)) r ;;
    match o with
    | Err e => Ret (Err e)
    | Ok _ =>
      total <- get_total_length p i ;;
      '(d, _, _) <- download_block_l p fuel (get_piece_length i) piece_idx total x1 r1 ;;
      match d with
      | Err e => Ret (Err (MEPieceDownloadFailure e))
      | Ok piece =>
        ok <- verify_piece sha1 i piece piece_idx ;;
        if negb ok then Ret (Err MEPieceVerificationFailure)
        else Ret (Ok piece)
      end
    end.
End Remote.

(** A new connection on which things arrive as [l] says, as in ModelStream. *)
Definition scheduled (ws : list (option nat)) (l : list tick) : stream := given (fresh ws) l.
