(** PropPeer: properties C33-C37 (peers and downloads) *)
From Verif Require Import Base ModelBencode ModelMessages ModelTorrent ModelTracker ModelStream ModelPeer SpecBencode SpecMessages SpecStream
  SpecWriter SpecPieces SpecPeer ProofPeer.

(** C33: the state of a peer is a function of the messages applied. *)
Theorem C33_state_from_history : forall pid s ih raws ms, Forall2 parsed raws ms ->
  let y := fold_left apply_message ms (peer_new pid s ih) in
  p_choked y = match last_of choke_or_unchoke raws with Some r => (fst r =? 0)%N | None => true end /\
  (forall k, nth_error (p_bitfield y) k = match last_of bitfield_id raws with Some r => bit (snd r) k | None => None end) /\
  (p_active y = true <-> exists r, last_of handshake_id raws = Some r /\ firstn 20 (skipn 28 (snd r)) = ih) /\
  (p_metadata_size y, p_extensions y)
    = match last_of (fun m => match states_size m with Some _ => true | None => false end) ms with
      | Some m => match states_size m with Some ne => ne | None => (0%N, []) end
      | None => (0%N, []) end /\
  p_stream y = s /\ p_info_hash y = ih /\ p_id y = pid.
Proof. exact c33. Qed.
Print Assumptions C33_state_from_history.

(** C33: the same for messages read from the socket, with silent attempts in between. *)
Theorem C33_state_from_socket : forall pid s ih ms y, receives (peer_new pid s ih) ms y ->
  exists raws, Forall2 parsed raws (somes ms) /\
  p_choked y = match last_of choke_or_unchoke raws with Some r => (fst r =? 0)%N | None => true end /\
  (forall k, nth_error (p_bitfield y) k = match last_of bitfield_id raws with Some r => bit (snd r) k | None => None end) /\
  (p_active y = true <-> exists r, last_of handshake_id raws = Some r /\ firstn 20 (skipn 28 (snd r)) = ih) /\
  (p_metadata_size y, p_extensions y)
    = match last_of (fun m => match states_size m with Some _ => true | None => false end) (somes ms) with
      | Some m => match states_size m with Some ne => ne | None => (0%N, []) end
      | None => (0%N, []) end /\
  p_info_hash y = ih /\ p_id y = pid /\ st_sent (p_stream y) = st_sent s.
Proof. exact c33_received. Qed.
Print Assumptions C33_state_from_socket.

Definition ex_socket (avail : bytes) : stream :=
  {| st_avail := avail; st_closed := false; st_sched := []; st_wsched := []; st_sent := [] |}.
Definition ex_hash : bytes := repeat 7%N 20.
Definition ex_handshake : bytes := handshake_layout ex_hash (repeat 8%N 20).
Definition ex_extended : bytes := frame 20 (0%N :: s2b "d1:md11:ut_metadatai3ee13:metadata_sizei31235ee").

Example C33_example :
  let f m x := match m with Ret (Ok m) => apply_message x m | _ => x end in
  let y := f (new_raw (s2b "123456") 6 9) (f (new_raw [160%N] 1 5) (f (new_raw [] 0 0) (f (new_raw [] 0 1)
             (peer_new (repeat 1%N 20) (ex_socket []) ex_hash)))) in
  p_choked y = true /\ p_bitfield y = [true; false; true; false; false; false; false; false] /\ p_active y = false.
Proof. vm_compute. auto. Qed.

(** C34: what initialisation sends and what its success means. *)
Theorem C34_initialisation : forall pid s ih r y, st_wsched s = [] -> init_peer (peer_new pid s ih) = Ret (r, y) ->
  (exists o, r = Err MEHandshake /\ receives (after_sending (peer_new pid s ih) (handshake_layout ih pid)) [o] y /\
     (forall m h, o = Some m -> msg_content m = CHandshake h -> hs_get_info_hash h <> ih) /\
     st_sent (p_stream y) = st_sent s ++ handshake_layout ih pid)
  \/
  (exists m0 h x1 ms, receives (after_sending (peer_new pid s ih) (handshake_layout ih pid)) [Some m0] x1 /\
     msg_content m0 = CHandshake h /\ hs_get_info_hash h = ih /\
     receives (after_sending x1 (frame 2 [] ++ extension_handshake)) ms y /\ (List.length ms <= 10)%nat /\
     (forall a b z, ms = a ++ b -> a <> [] -> b <> [] ->
        receives (after_sending x1 (frame 2 [] ++ extension_handshake)) a z -> ~ ready z) /\
     ((r = Ok tt /\ ready y) \/ (r = Err MEPeerNotReady /\ List.length ms = 10%nat /\ ~ ready y)) /\
     st_sent (p_stream y) = st_sent s ++ handshake_layout ih pid ++ frame 2 [] ++ extension_handshake).
Proof. exact c34_pinned. Qed.
Print Assumptions C34_initialisation.

Definition ex_init (avail : bytes) : outcome (result unit manager_error * peer) :=
  init_peer (peer_new (repeat 1%N 20) (ex_socket avail) ex_hash).

Example C34_example :
  match ex_init (ex_handshake ++ frame 5 [255%N] ++ ex_extended ++ frame 1 [] ++ frame 4 [0; 0; 0; 1]%N) with
  | Ret (Ok tt, y) => p_active y = true /\ p_metadata_size y = 31235%N /\ p_bitfield y = repeat true 8 /\
                      hm_get (p_extensions y) (s2b "ut_metadata") = Some 3%N /\ st_avail (p_stream y) = frame 4 [0; 0; 0; 1]%N
  | _ => False
  end /\
  match ex_init (handshake_layout (repeat 9%N 20) (repeat 8%N 20) ++ frame 1 []) with
  | Ret (Err MEHandshake, y) => List.length (st_sent (p_stream y)) = 68%nat
  | _ => False
  end /\
  match ex_init (ex_handshake ++ frame 1 []) with Ret (Err MEPeerNotReady, _) => True | _ => False end.
Proof. vm_compute. auto 10. Qed.

(** C34: the info hash is not looked at again: a peer that takes its handshake back is still accepted. *)
Theorem C34_second_handshake_refuted : exists s pid ih y, st_wsched s = [] /\
  init_peer (peer_new pid s ih) = Ret (Ok tt, y) /\ p_active y = false.
Proof.
  exists (ex_socket (ex_handshake ++ handshake_layout (repeat 9%N 20) (repeat 8%N 20) ++ ex_extended ++ frame 1 [])),
    (repeat 1%N 20), ex_hash. eexists. split; [reflexivity|]. split; [vm_compute; reflexivity|]. reflexivity.
Qed.
Print Assumptions C34_second_handshake_refuted.

(** C35 and C36: a download of a piece that returns. *)
Theorem C35_piece_download : forall p fuel plen i total x r y, st_wsched (p_stream x) = [] ->
  (0 < plen)%N -> (i < piece_count total plen)%N -> (total + plen <= 2 ^ 64)%N -> (i < 2 ^ 32)%N -> (plen < 2 ^ 32)%N ->
  download_block p fuel plen i total x = Ret (r, y) ->
  exists es, history is_request_message (ask_block i total plen) (piece_count (N.min plen (total - i * plen)) 16384) x r y es.
Proof. exact c35_block. Qed.
Print Assumptions C35_piece_download.

(** C35 and C36: a download of the metadata that returns. *)
Theorem C35_metadata_download : forall fuel x r y, st_wsched (p_stream x) = [] ->
  p_metadata_size x <> 0%N -> (p_metadata_size x < 2 ^ 64)%N -> download_info fuel x = Ret (r, y) ->
  exists es, history is_extension_data_message ask_metadata (piece_count (p_metadata_size x) 16384) x r y es.
Proof. exact c35_info. Qed.
Print Assumptions C35_metadata_download.

(** C35: what is taken for a block of a piece, and what it carries. *)
Theorem C35_block_messages : forall id body m, parsed (id, body) m ->
  (is_request_message m = true <-> id = 6 \/ id = 7)%N /\
  (is_request_message m = true -> get_content_data m = skipn 8 body) /\
  (is_extension_data_message m = true -> id = 20%N).
Proof. exact block_message. Qed.
Print Assumptions C35_block_messages.

Definition block_of (i off : N) (data : bytes) : bytes := frame 7 (big_endian 4 i ++ big_endian 4 off ++ data).
Definition ex_peer (avail : bytes) : peer := with_choked (peer_new (repeat 1%N 20) (ex_socket avail) ex_hash) false.
Definition ex_request (b len : N) : bytes := frame 6 (big_endian 4 3 ++ big_endian 4 (b * 16384) ++ big_endian 4 len).

Example C35_example :
  match download_block Debug 30 20000 3 70000 (ex_peer (frame 4 [0; 0; 0; 5]%N ++ block_of 3 0 [1; 2; 3]%N ++ block_of 3 16384 [4; 5]%N)) with
  | Ret (Ok d, y) => Some (d, st_sent (p_stream y))
  | _ => None
  end = Some ([1; 2; 3]%N, ex_request 0 10000) /\
  match download_block Debug 30 20000 3 80000 (ex_peer (frame 4 [0; 0; 0; 5]%N ++ block_of 3 0 [1; 2; 3]%N ++ block_of 3 16384 [4; 5]%N)) with
  | Ret (Ok d, y) => Some (d, st_sent (p_stream y))
  | _ => None
  end = Some ([1; 2; 3; 4; 5]%N, ex_request 0 16384 ++ ex_request 1 3616).
Proof. vm_compute. auto. Qed.

(** C35: blocks are put together in the order of arrival, whatever offset they state. *)
Theorem C35_arrival_order_refuted : exists x y, p_choked x = false /\
  st_avail (p_stream x) = frame 4 [0; 0; 0; 5]%N ++ block_of 3 16384 [4; 5]%N ++ block_of 3 0 [1; 2; 3]%N /\
  download_block Debug 30 20000 3 80000 x = Ret (Ok [4; 5; 1; 2; 3]%N, y).
Proof.
  exists (ex_peer (frame 4 [0; 0; 0; 5]%N ++ block_of 3 16384 [4; 5]%N ++ block_of 3 0 [1; 2; 3]%N)).
  eexists. split; [reflexivity|]. split; [reflexivity|]. vm_compute. reflexivity.
Qed.
Print Assumptions C35_arrival_order_refuted.

(** C35: a block that arrives unasked in the first round: the second block is asked for twice, the
    first never. *)
Theorem C35_unsolicited_refuted : exists x y, p_choked x = false /\
  download_block Debug 30 20000 3 80000 x = Ret (Ok [1; 2; 3; 4; 5]%N, y) /\
  st_sent (p_stream y) = ex_request 1 3616 ++ ex_request 1 3616.
Proof.
  exists (ex_peer (block_of 3 0 [1; 2; 3]%N ++ frame 4 [0; 0; 0; 5]%N ++ block_of 3 16384 [4; 5]%N)).
  eexists. split; [reflexivity|]. split; [vm_compute; reflexivity|]. vm_compute. reflexivity.
Qed.
Print Assumptions C35_unsolicited_refuted.

(** C35: blocks of another piece, and requests made by the remote end, are taken for data. *)
Theorem C35_foreign_blocks_refuted : exists x y, p_choked x = false /\
  st_avail (p_stream x) = block_of 9 77 [1; 2; 3]%N ++ frame 6 (big_endian 4 3 ++ big_endian 4 0 ++ big_endian 4 16384) /\
  download_block Debug 30 20000 3 80000 x = Ret (Ok ([1; 2; 3] ++ big_endian 4 16384)%N, y).
Proof.
  exists (ex_peer (block_of 9 77 [1; 2; 3]%N ++ frame 6 (big_endian 4 3 ++ big_endian 4 0 ++ big_endian 4 16384))).
  eexists. split; [reflexivity|]. split; [reflexivity|]. vm_compute. reflexivity.
Qed.
Print Assumptions C35_foreign_blocks_refuted.

(** C36: against a peer whose remaining bytes are finite a piece download returns, unless it meets a
    message that aborts or hangs it. *)
Theorem C36_piece_terminates : forall p fuel plen i total x, st_wsched (p_stream x) = [] ->
  (0 < plen)%N -> (i < piece_count total plen)%N -> (total + plen <= 2 ^ 64)%N -> (i < 2 ^ 32)%N -> (plen < 2 ^ 32)%N ->
  (11 * List.length (incoming (p_stream x)) + 11 < fuel)%nat ->
  (exists r y, download_block p fuel plen i total x = Ret (r, y)) \/
  (exists es z body id len, exchange (ask_block i total plen) x es z /\
     fst (read_stream (p_stream z)) = Some (body, id, len) /\
     ((download_block p fuel plen i total x = Panic /\ unreadable body id) \/
      (download_block p fuel plen i total x = OutOfFuel /\ endless body id))).
Proof. exact c36_block. Qed.
Print Assumptions C36_piece_terminates.

(** C36: the same for the metadata; it also aborts if the peer does not name ut_metadata. *)
Theorem C36_metadata_terminates : forall fuel x, st_wsched (p_stream x) = [] -> (p_metadata_size x < 2 ^ 64)%N ->
  (11 * List.length (incoming (p_stream x)) + 11 < fuel)%nat ->
  (exists r y, download_info fuel x = Ret (r, y)) \/
  (exists es z, exchange ask_metadata x es z /\
     ((download_info fuel x = Panic /\ hm_get (p_extensions z) (s2b "ut_metadata") = None) \/
      exists body id len, fst (read_stream (p_stream z)) = Some (body, id, len) /\
        ((download_info fuel x = Panic /\ unreadable body id) \/ (download_info fuel x = OutOfFuel /\ endless body id)))).
Proof. exact c36_info. Qed.
Print Assumptions C36_metadata_terminates.

(** C36: for every number of rounds there is a peer that keeps the download going: one that keeps
    sending messages of no relevance. *)
Theorem C36_busy_peer : forall p fuel plen i total x rest, st_wsched (p_stream x) = [] ->
  (0 < plen)%N -> (i < piece_count total plen)%N -> (total + plen <= 2 ^ 64)%N -> (i < 2 ^ 32)%N -> (plen < 2 ^ 32)%N ->
  p_choked x = false -> Forall (fun t => t <> TErr) (st_sched (p_stream x)) ->
  st_avail (p_stream x) = List.concat (repeat (frame 4 [0; 0; 0; 0]%N) fuel) ++ rest ->
  download_block p fuel plen i total x = OutOfFuel.
Proof. exact c36_busy. Qed.
Print Assumptions C36_busy_peer.

Example C36_example :
  match download_block Debug 11 20000 3 80000 (ex_peer []) with Ret (Err Idle, y) => st_sent (p_stream y) = ex_request 0 16384 | _ => False end /\
  download_block Debug 10 20000 3 80000 (ex_peer []) = OutOfFuel /\
  match download_block Debug 11 20000 3 80000 (ex_peer (frame 4 [0; 0; 0; 5]%N)) with Ret (Err Idle, _) => True | _ => False end /\
  match download_block Debug 2 20000 3 80000 (ex_peer (block_of 3 0 [1]%N ++ frame 0 [])) with Ret (Err ChokedPeer, _) => True | _ => False end /\
  download_block Debug 2 20000 3 80000 (ex_peer (frame 7 [1; 2; 3]%N)) = Panic.
Proof. vm_compute. auto 10. Qed.

(** C36: a peer that announces metadata but no ut_metadata extension aborts the client. *)
Theorem C36_no_ut_metadata_refuted : exists s, st_wsched s = [] /\
  get_info 50 (Some s) (repeat 1%N 20) ex_hash (s2b "10.0.0.1:6881") = Panic.
Proof.
  exists (ex_socket (ex_handshake ++ frame 20 (0%N :: s2b "d1:md6:ut_pexi1ee13:metadata_sizei31235ee") ++ frame 1 [])).
  split; [reflexivity|]. vm_compute. reflexivity.
Qed.
Print Assumptions C36_no_ut_metadata_refuted.

(** C37: whatever the peer does, a piece that is returned has the recorded hash. *)
Theorem C37_verified : forall sha1 p fuel net pid ep i idx piece,
  download sha1 p fuel net pid ep i idx = Ret (Ok piece) ->
  sha1 piece = firstn 20 (skipn (20 * N.to_nat idx) (i_pieces i)) /\
  (20 * N.to_nat idx + 20 <= List.length (i_pieces i))%nat.
Proof. exact c37. Qed.
Print Assumptions C37_verified.

(** C37: the result of a piece download is that of initialisation, of the exchange of blocks, or of
    the comparison of hashes. *)
Theorem C37_download : forall sha1 p fuel s pid ep i idx total r, st_wsched s = [] ->
  parse_socket_addr ep <> None -> get_total_length p i = Ret total ->
  (0 < i_piece_length i)%N -> (idx < piece_count total (i_piece_length i))%N -> (total + i_piece_length i <= 2 ^ 64)%N ->
  (idx < 2 ^ 32)%N -> (i_piece_length i < 2 ^ 32)%N ->
  download sha1 p fuel (Some s) pid ep i idx = Ret r ->
  exists r0 x1, init_peer (peer_new pid s (compute_info_hash sha1 i)) = Ret (r0, x1) /\
    match r0 with
    | Err e => r = Err e
    | Ok _ => exists d y es,
        history is_request_message (ask_block idx total (i_piece_length i))
          (piece_count (N.min (i_piece_length i) (total - idx * i_piece_length i)) 16384) x1 d y es /\
        match d with
        | Err e => r = Err (MEPieceDownloadFailure e)
        | Ok piece => (r = Ok piece /\ sha1 piece = firstn 20 (skipn (20 * N.to_nat idx) (i_pieces i))) \/
                      (r = Err MEPieceVerificationFailure /\ sha1 piece <> firstn 20 (skipn (20 * N.to_nat idx) (i_pieces i)))
        end
    end.
Proof. exact c37_whole. Qed.
Print Assumptions C37_download.

(** A stand-in for SHA-1 in examples. *)
Definition ex_sha1 (b : bytes) : bytes := firstn 20 (b ++ repeat 0%N 20).
Definition ex_info (pieces : bytes) : info :=
  {| i_length := Some 5%N; i_files := None; i_name := s2b "x"; i_piece_length := 3%N; i_pieces := pieces |}.
Definition ex_remote (i : info) (b : bytes) : stream :=
  ex_socket (handshake_layout (compute_info_hash ex_sha1 i) (repeat 8%N 20) ++ ex_extended ++ frame 1 [] ++ block_of 1 0 b).

Example C37_example :
  let i := ex_info (ex_sha1 [1; 2; 3]%N ++ ex_sha1 [4; 5]%N) in
  let run b := download ex_sha1 Debug 50 (Some (ex_remote i b)) (repeat 1%N 20) (s2b "10.0.0.1:6881") i 1 in
  run [4; 5]%N = Ret (Ok [4; 5]%N) /\ run [4; 6]%N = Ret (Err MEPieceVerificationFailure).
Proof. vm_compute. auto. Qed.

(** C37: the hashes in the metadata may be too few; the worker aborts. *)
Theorem C37_missing_hash_refuted : exists i s, get_total_length Debug i = Ret 5%N /\ (1 < piece_count 5 (i_piece_length i))%N /\
  download ex_sha1 Debug 50 (Some s) (repeat 1%N 20) (s2b "10.0.0.1:6881") i 1 = Panic.
Proof.
  exists (ex_info (ex_sha1 [1; 2; 3]%N)), (ex_remote (ex_info (ex_sha1 [1; 2; 3]%N)) [4; 5]%N). vm_compute. auto.
Qed.
Print Assumptions C37_missing_hash_refuted.
