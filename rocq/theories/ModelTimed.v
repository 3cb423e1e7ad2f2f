(** ModelTimed: sessions in time with a remote end that reacts to what it is sent (src/peer/{mod,buffer,manager}.rs,
    src/peer/download/*.rs); the clock of ModelClock and the remote ends of ModelLive together. *)
From Verif Require Import Base ModelBencode ModelMessages ModelTorrent ModelTracker ModelStream ModelPeer ModelLive ModelClock.

(** The remote end is a program again: [hear now r b] is what it does with bytes that were written to it at the moment [now]; what it
    sends because of them reaches this machine at the moments given, after all that it sent before. *)
Section Remote.
  Variable R : Type.
  Variable hear : N -> R -> bytes -> list (N * tick) * R.

  (** The remote end and the clock after what was written between [x] and [x1]; writing takes no time. *)
  Definition told_t (x x1 : peer) (c : clocked) (r : R) : clocked * R :=
    let (evs, r1) := hear (ck_now c) r (skipn (List.length (st_sent (p_stream x))) (st_sent (p_stream x1))) in
    ({| ck_now := ck_now c; ck_events := ck_events c ++ evs; ck_log := ck_log c; ck_stream := ck_stream c |}, r1).

  (** peer/mod.rs 126-131: read_message. *)
  Definition read_message_t (x : peer) (c : clocked) : outcome (option message * peer * clocked) :=
    let (v, c1) := read_stream_c (set_stream c (p_stream x)) in
    let x1 := with_stream x (ck_stream c1) in
    match v with
    | Some (body, id, length) => m <- new_raw body length id ;; Ret (res_ok m, x1, c1)
    | None => Ret (None, x1, c1)
    end.

  (** manager.rs 87-90 and 101-104: read one message, if any, and apply it. *)
  Definition read_and_apply_t (x : peer) (c : clocked) : outcome (peer * clocked) :=
    '(m, x1, c1) <- read_message_t x c ;;
    Ret (match m with Some m => apply_message x1 m | None => x1 end, c1).

  (** manager.rs 100-110: up to [rounds] further messages. *)
  Fixpoint init_rounds_t (rounds : nat) (x : peer) (c : clocked) : outcome (result unit manager_error * peer * clocked) :=
    match rounds with
    | O => Ret (Err MEPeerNotReady, x, c)
    | S n =>
      '(x1, c1) <- read_and_apply_t x c ;;
      if is_ready x1 then Ret (Ok tt, x1, c1) else init_rounds_t n x1 c1
    end.

  (** manager.rs 85-111: init_peer. *)
  Definition init_peer_t (x : peer) (c : clocked) (r : R) : outcome (result unit manager_error * peer * clocked * R) :=
    let x0 := send_message x (new_handshake (p_info_hash x) (p_id x)) in
    let (c0, r0) := told_t x x0 c r in
    '(x1, c1) <- read_and_apply_t x0 c0 ;;
    if negb (is_active x1) then Ret (Err MEHandshake, x1, c1, r0)
    else
      let x2 := send_message x1 new_interested in
      let (c2, r2) := told_t x1 x2 c1 r0 in
      let (ok, x3) := peer_send_metadata_handshake x2 in
      let (c3, r3) := told_t x2 x3 c2 r2 in
      if negb ok then Ret (Err MEHandshakeMetadata, x3, c3, r3)
      else
        '(o, x4, c4) <- init_rounds_t 10 x3 c3 ;;
        Ret (o, x4, c4, r3).

  (** download/mod.rs 58-87: execute, one unit of fuel per round of the loop. *)
  Fixpoint execute_t (fuel : nat) (filter : message -> bool) (next : peer -> N -> outcome peer)
    (x : peer) (c : clocked) (r : R) (b : msg_buffer) (idle : N) : outcome (result bytes download_error * peer * clocked * R) :=
    match fuel with
    | O => OutOfFuel
    | S f =>
      '(m, x1, c1) <- read_message_t x c ;;
      let '(x2, b1, idle1) :=
        match m with
        | Some m => (apply_message x1 m, push_message filter b m, 0%N)
        | None => (x1, b, idle)
        end in
      if is_full b1 then Ret (Ok (assemble_content b1), x2, c1, r)
      else if is_choked x2 then Ret (Err ChokedPeer, x2, c1, r)
      else
        '(b2, x3) <- request_next_message next b1 x2 ;;
        let (c2, r2) := told_t x2 x3 c1 r in
        let idle2 := (idle1 + 1)%N in
        if (10 <? idle2)%N then Ret (Err Idle, x3, c2, r2)
        else execute_t f filter next x3 c2 r2 b2 idle2
    end.

  (** download/mod.rs 26-34: Downloadable::Info. *)
  Definition download_info_t (fuel : nat) (x : peer) (c : clocked) (r : R) : outcome (result bytes download_error * peer * clocked * R) :=
    capacity <- step_by_len (get_metadata_size x) INFO_PIECE_SIZE ;;
    execute_t fuel is_extension_data_message next_piece x c r (buffer_new capacity) 0.

  (** download/mod.rs 35-45: Downloadable::Block. *)
  Definition download_block_t (p : profile) (fuel : nat) (piece_length piece_index total_length : N) (x : peer) (c : clocked) (r : R)
    : outcome (result bytes download_error * peer * clocked * R) :=
    len <- real_piece_length p piece_length piece_index total_length ;;
    capacity <- step_by_len len BLOCK_SIZE ;;
    execute_t fuel is_request_message (next_block p BLOCK_SIZE piece_index total_length piece_length) x c r (buffer_new capacity) 0.

  (** A connection that was established at the moment [now]. *)
  Definition connected (now : N) (ws : list (option nat)) : clocked :=
    {| ck_now := now; ck_events := []; ck_log := []; ck_stream := fresh ws |}.

  (** manager.rs 30-39: get_info, with a remote end that accepts the connection, and the moment at which it is over. *)
  Definition get_info_t (fuel : nat) (now : N) (ws : list (option nat)) (r : R) (pid info_hash ep : bytes)
    : outcome (result info manager_error * N) :=
    s <- connect (Some (fresh ws)) ep ;;
    match s with
    | Err e => Ret (Err e, now)
    | Ok s =>
      '(i, x1, c1, r1) <- init_peer_t (peer_new pid s info_hash) (connected now ws) r ;;
      match i with
      | Err e => Ret (Err e, ck_now c1)
      | Ok _ =>
        '(d, _, c2, _) <- download_info_t fuel x1 c1 r1 ;;
        match d with
        | Err e => Ret (Err (MEDownload e), ck_now c2)
        | Ok b =>
          i <- info_from_bytes b ;;
          match i with
          | Ok i => Ret (Ok i, ck_now c2)
          | Err e => Ret (Err (MEInfo e), ck_now c2)
          end
        end
      end
    end.

  Variable sha1 : bytes -> bytes.

  (** manager.rs 57-83: download, and the moment at which it is over. *)
  Definition download_t (p : profile) (fuel : nat) (now : N) (ws : list (option nat)) (r : R) (pid ep : bytes) (i : info) (piece_idx : N)
    : outcome (result bytes manager_error * N) :=
    s <- connect (Some (fresh ws)) ep ;;
    match s with
    | Err e => Ret (Err e, now)
    | Ok s =>
      '(o, x1, c1, r1) <- init_peer_t (peer_new pid s (compute_info_hash sha1 i)) (connected now ws) r ;;
      match o with
      | Err e => Ret (Err e, ck_now c1)
      | Ok _ =>
        total <- get_total_length p i ;;
        '(d, _, c2, _) <- download_block_t p fuel (get_piece_length i) piece_idx total x1 c1 r1 ;;
        match d with
        | Err e => Ret (Err (MEPieceDownloadFailure e), ck_now c2)
        | Ok piece =>
          ok <- verify_piece sha1 i piece piece_idx ;;
          if negb ok then Ret (Err MEPieceVerificationFailure, ck_now c2)
          else Ret (Ok piece, ck_now c2)
        end
      end
    end.
End Remote.
