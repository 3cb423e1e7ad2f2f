(** ModelPeer: src/peer/{mod,buffer,piece_pool,manager}.rs and src/peer/download/*.rs *)
From Verif Require Import Base Utf8 ModelBencode ModelMessages ModelTorrent ModelTracker ModelStream.

(** ** peer/mod.rs *)

(** mod.rs 17-27: struct Peer. *)
Record peer := {
  p_id : bytes;
  p_choked : bool;
  p_active : bool;
  p_bitfield : list bool;
  p_metadata_size : N;
  p_extensions : hmap N;
  p_stream : stream;
  p_info_hash : bytes
}.

(** mod.rs 30-41: Peer::new; [pid] is the generated peer id. *)
Definition peer_new (pid : bytes) (s : stream) (info_hash : bytes) : peer :=
  {| p_choked := true; p_bitfield := []; p_metadata_size := 0; p_extensions := [];
     p_stream := s; p_active := false; p_info_hash := info_hash; p_id := pid |}.

Definition with_stream (x : peer) (s : stream) : peer :=
  {| p_id := p_id x; p_choked := p_choked x; p_active := p_active x; p_bitfield := p_bitfield x;
     p_metadata_size := p_metadata_size x; p_extensions := p_extensions x; p_stream := s;
     p_info_hash := p_info_hash x |}.
Definition with_choked (x : peer) (c : bool) : peer :=
  {| p_id := p_id x; p_choked := c; p_active := p_active x; p_bitfield := p_bitfield x;
     p_metadata_size := p_metadata_size x; p_extensions := p_extensions x; p_stream := p_stream x;
     p_info_hash := p_info_hash x |}.
Definition with_active (x : peer) (a : bool) : peer :=
  {| p_id := p_id x; p_choked := p_choked x; p_active := a; p_bitfield := p_bitfield x;
     p_metadata_size := p_metadata_size x; p_extensions := p_extensions x; p_stream := p_stream x;
     p_info_hash := p_info_hash x |}.
Definition with_bitfield (x : peer) (b : list bool) : peer :=
  {| p_id := p_id x; p_choked := p_choked x; p_active := p_active x; p_bitfield := b;
     p_metadata_size := p_metadata_size x; p_extensions := p_extensions x; p_stream := p_stream x;
     p_info_hash := p_info_hash x |}.
Definition with_metadata (x : peer) (e : hmap N) (n : N) : peer :=
  {| p_id := p_id x; p_choked := p_choked x; p_active := p_active x; p_bitfield := p_bitfield x;
     p_metadata_size := n; p_extensions := e; p_stream := p_stream x;
     p_info_hash := p_info_hash x |}.

(** mod.rs 43-57, 68-70 *)
Definition is_choked (x : peer) : bool := p_choked x.
Definition is_active (x : peer) : bool := p_active x.
Definition is_ready (x : peer) : bool := negb (p_metadata_size x =? 0)%N && negb (p_choked x).
Definition get_metadata_size (x : peer) : N := p_metadata_size x.

(** mod.rs 72-74: get_extension_id_by_name; [unwrap] panics on an unknown name. *)
Definition get_extension_id_by_name (x : peer) (name : bytes) : outcome N :=
  match hm_get (p_extensions x) name with
  | Some v => Ret v
  | None => Panic
  end.

(** mod.rs 106-124: apply_content. *)
Definition apply_content (x : peer) (m : message) : peer :=
  match msg_content m with
  | CBitfield c => with_bitfield x (get_bitfield_as_bit_vector c)
  | CExtension c =>
    if ex_is_handshake c then
      with_metadata x (ex_get_extensions c)
        (match ex_get_metadata_size c with Some n => n | None => 0%N end)
    else x
  | CHandshake h => with_active x (bytes_eqb (p_info_hash x) (hs_get_info_hash h))
  | _ => x
  end.

(** mod.rs 76-104: apply_message. *)
Definition apply_message (x : peer) (m : message) : peer :=
  if (msg_id m =? 0)%N then with_choked x true
  else if (msg_id m =? 1)%N then with_choked x false
  else if (msg_id m =? 2)%N then apply_content x m
  else if (msg_id m =? 5)%N then apply_content x m
  else if (msg_id m =? 19)%N then apply_content x m
  else if (msg_id m =? 20)%N then apply_content x m
  else x.

(** mod.rs 126-131: read_message. *)
Definition read_message (x : peer) : outcome (option message * peer) :=
  let (r, s) := read_stream (p_stream x) in
  let x' := with_stream x s in
  match r with
  | Some (body, id, length) => m <- new_raw body length id ;; Ret (res_ok m, x')
  | None => Ret (None, x')
  end.

(** mod.rs 133-135 *)
Definition send_message (x : peer) (m : message) : peer :=
  with_stream x (write_stream (p_stream x) (message_as_bytes m)).

(** mod.rs 137-139; true means Ok. *)
Definition peer_send_metadata_handshake (x : peer) : bool * peer :=
  let (ok, s) := send_metadata_handshake_request (p_stream x) in (ok, with_stream x s).

(** ** peer/buffer.rs *)

(** buffer.rs 4-13: struct MessageBuffer; the filter and the request closure are passed separately. *)
Record msg_buffer := { mb_buffer : list message; mb_capacity : N; mb_expected_size : N }.
(** buffer.rs 19-31 *)
Definition buffer_new (capacity : N) : msg_buffer :=
  {| mb_buffer := []; mb_capacity := capacity; mb_expected_size := 0 |}.
(** buffer.rs 47-49 *)
Definition is_full (b : msg_buffer) : bool := (lenN (mb_buffer b) =? mb_capacity b)%N.
(** buffer.rs 58-60 *)
Definition is_len_as_expected (b : msg_buffer) : bool :=
  (mb_expected_size b =? lenN (mb_buffer b) + 1)%N.
(** buffer.rs 33-37 *)
Definition push_message (filter : message -> bool) (b : msg_buffer) (m : message) : msg_buffer :=
  if filter m && negb (is_full b)
  then {| mb_buffer := mb_buffer b ++ [m]; mb_capacity := mb_capacity b;
          mb_expected_size := mb_expected_size b |}
  else b.
(** buffer.rs 39-45 *)
Definition request_next_message (next : peer -> N -> outcome peer) (b : msg_buffer) (x : peer)
  : outcome (msg_buffer * peer) :=
  if is_len_as_expected b || is_full b then Ret (b, x)
  else
    x' <- next x (lenN (mb_buffer b)) ;;
    Ret ({| mb_buffer := mb_buffer b; mb_capacity := mb_capacity b;
            mb_expected_size := mb_expected_size b + 1 |}, x').
(** buffer.rs 51-56 *)
Definition assemble_content (b : msg_buffer) : bytes := flat_map get_content_data (mb_buffer b).

(** ** peer/download/block.rs *)

(** block.rs 34-41 *)
Definition get_block_size (p : profile) (block_offset torrent_length piece_offset block_size : N)
  : outcome N :=
  o <- uadd p block_offset piece_offset ;;
  r <- usub p torrent_length o ;;
  Ret (N.min r block_size).

(** block.rs 14-21: the request sent for a block index: (piece index, offset, length) as u32. *)
Definition block_request (p : profile) (block_size piece_index total_length piece_length block_index : N)
  : outcome (N * N * N) :=
  block_offset <- umul p block_index block_size ;;
  piece_offset <- umul p piece_index piece_length ;;
  block_length <- get_block_size p block_offset total_length piece_offset block_size ;;
  Ret (as_u32 piece_index, as_u32 block_offset, as_u32 block_length).

(** block.rs 8-28: next_block. *)
Definition next_block (p : profile) (block_size piece_index total_length piece_length : N)
  (x : peer) (block_index : N) : outcome peer :=
  '(pi, off, len) <- block_request p block_size piece_index total_length piece_length block_index ;;
  Ret (send_message x (new_request pi off len)).

(** ** peer/download/info.rs 6-11: next_piece. *)
Definition next_piece (x : peer) (piece_index : N) : outcome peer :=
  metadata_id <- get_extension_id_by_name x (s2b "ut_metadata") ;;
  m <- new_metadata metadata_id piece_index ;;
  Ret (send_message x m).

(** ** peer/download/mod.rs *)

(** mod.rs 7-8 *)
Definition BLOCK_SIZE : N := 16384.
Definition INFO_PIECE_SIZE : N := 16384.

(** mod.rs 15-21: enum DownloadableError. *)
Inductive download_error := ChokedPeer | Idle.

(** mod.rs 50-56 *)
Definition real_piece_length (p : profile) (piece_length piece_index total_length : N) : outcome N :=
  i1 <- uadd p piece_index 1 ;;
  e <- umul p piece_length i1 ;;
  if (total_length <? e)%N then
    o <- umul p piece_length piece_index ;; usub p total_length o
  else Ret piece_length.

(** mod.rs 58-87: execute, one unit of fuel per round of the loop. The peer is returned as well. *)
Fixpoint execute (fuel : nat) (filter : message -> bool) (next : peer -> N -> outcome peer)
  (x : peer) (b : msg_buffer) (idle : N) : outcome (result bytes download_error * peer) :=
  match fuel with
  | O => OutOfFuel
  | S f =>
    '(m, x1) <- read_message x ;;
    let '(x2, b1, idle1) :=
      match m with
      | Some m => (apply_message x1 m, push_message filter b m, 0%N)
      | None => (x1, b, idle)
      end in
    if is_full b1 then Ret (Ok (assemble_content b1), x2)
    else if is_choked x2 then Ret (Err ChokedPeer, x2)
    else
      '(b2, x3) <- request_next_message next b1 x2 ;;
      let idle2 := (idle1 + 1)%N in
      if (10 <? idle2)%N then Ret (Err Idle, x3)
      else execute f filter next x3 b2 idle2
  end.

(** mod.rs 26-34: Downloadable::Info. *)
Definition download_info (fuel : nat) (x : peer) : outcome (result bytes download_error * peer) :=
  capacity <- step_by_len (get_metadata_size x) INFO_PIECE_SIZE ;;
  execute fuel is_extension_data_message next_piece x (buffer_new capacity) 0.

(** mod.rs 35-45: Downloadable::Block. *)
Definition download_block (p : profile) (fuel : nat) (piece_length piece_index total_length : N)
  (x : peer) : outcome (result bytes download_error * peer) :=
  len <- real_piece_length p piece_length piece_index total_length ;;
  capacity <- step_by_len len BLOCK_SIZE ;;
  execute fuel is_request_message (next_block p BLOCK_SIZE piece_index total_length piece_length)
    x (buffer_new capacity) 0.

(** ** peer/manager.rs *)

(** manager.rs 10-28: enum PeerManagerError. *)
Inductive manager_error :=
| MEHandshake | MEHandshakeMetadata | MEPeerNotReady
| MEPieceDownloadFailure (e : download_error) | MEPieceVerificationFailure
| MEStream | MEInfo (e : info_error) | MEDownload (e : download_error).

(** manager.rs 87-90 and 101-104: read one message, if any, and apply it. *)
Definition read_and_apply (x : peer) : outcome peer :=
  '(m, x1) <- read_message x ;;
  Ret (match m with Some m => apply_message x1 m | None => x1 end).

(** manager.rs 100-110: up to [rounds] further messages. *)
Fixpoint init_rounds (rounds : nat) (x : peer) : outcome (result unit manager_error * peer) :=
  match rounds with
  | O => Ret (Err MEPeerNotReady, x)
  | S r =>
    x1 <- read_and_apply x ;;
    if is_ready x1 then Ret (Ok tt, x1) else init_rounds r x1
  end.

(** manager.rs 85-111: init_peer. *)
Definition init_peer (x : peer) : outcome (result unit manager_error * peer) :=
  let x0 := send_message x (new_handshake (p_info_hash x) (p_id x)) in
  x1 <- read_and_apply x0 ;;
  if negb (is_active x1) then Ret (Err MEHandshake, x1)
  else
    let x2 := send_message x1 new_interested in
    let (ok, x3) := peer_send_metadata_handshake x2 in
    if negb ok then Ret (Err MEHandshakeMetadata, x3)
    else init_rounds 10 x3.

(** stream.rs 55-66 (connect, not mocked): the address must parse ([expect]); [net] is the socket
    obtained, or None if connecting fails. *)
Definition connect (net : option stream) (ep : bytes) : outcome (result stream manager_error) :=
  match parse_socket_addr ep with
  | None => Panic
  | Some _ => match net with
              | Some s => Ret (Ok s)
              | None => Ret (Err MEStream)
              end
  end.

(** manager.rs 30-39: get_info. [net] is the remote peer, [pid] the generated id. *)
Definition get_info (fuel : nat) (net : option stream) (pid : bytes) (info_hash ep : bytes)
  : outcome (result info manager_error) :=
  s <-? connect net ep ;;
  let x := peer_new pid s info_hash in
  '(r, x1) <- init_peer x ;;
  match r with
  | Err e => Ret (Err e)
  | Ok _ =>
    '(d, _) <- download_info fuel x1 ;;
    match d with
    | Err e => Ret (Err (MEDownload e))
    | Ok b =>
      i <- info_from_bytes b ;;
      match i with
      | Ok i => Ret (Ok i)
      | Err e => Ret (Err (MEInfo e))
      end
    end
  end.

Section Hash.
  Variable sha1 : bytes -> bytes.

  (** manager.rs 57-83: download. *)
  Definition download (p : profile) (fuel : nat) (net : option stream) (pid : bytes)
    (ep : bytes) (i : info) (piece_idx : N) : outcome (result bytes manager_error) :=
    s <-? connect net ep ;;
    let x := peer_new pid s (compute_info_hash sha1 i) in
    '(r, x1) <- init_peer x ;;
    match r with
    | Err e => Ret (Err e)
    | Ok _ =>
      total <- get_total_length p i ;;
      '(d, _) <- download_block p fuel (get_piece_length i) piece_idx total x1 ;;
      match d with
      | Err e => Ret (Err (MEPieceDownloadFailure e))
      | Ok piece =>
        ok <- verify_piece sha1 i piece piece_idx ;;
        if negb ok then Ret (Err MEPieceVerificationFailure)
        else Ret (Ok piece)
      end
    end.
End Hash.

(** ** peer/piece_pool.rs (the mutex is never poisoned: no holder panics) *)

Definition piece_pool := list N.
(** piece_pool.rs 10-18 *)
Definition pool_new (count : N) : piece_pool := map N.of_nat (seq 0 (N.to_nat count)).
(** piece_pool.rs 20-25: pop_front *)
Definition pool_pop (q : piece_pool) : option N * piece_pool :=
  match q with
  | [] => (None, [])
  | x :: t => (Some x, t)
  end.
(** piece_pool.rs 27-31: push_back *)
Definition pool_insert (q : piece_pool) (piece : N) : piece_pool := q ++ [piece].
