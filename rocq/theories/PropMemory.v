(** PropMemory: the memory a peer makes the client reserve (C75) *)
From Verif Require Import Base ModelBencode ModelMessages ModelTorrent ModelTracker ModelStream ModelPeer ModelActors ModelMemory
  SpecBencode SpecTorrent SpecMessages SpecWriter SpecPieces SpecStream SpecPeer SpecSession SpecWrites SpecCache SpecVerdict SpecMemory
  PropPeer ProofMemory.

(** C75: an attempt to read reserves exactly the size of the message it brings, which has been received; in vain or not, less than 4 GiB. *)
Theorem C75_attempt : forall s, let '(r, s', k) := read_stream_m s in
  read_stream s = (r, s') /\ (octets (incoming s) -> (k < 2 ^ 32 - 1)%N) /\
  (forall body id len, r = Some (body, id, len) -> k = lenN body /\ (lenN body + lenN (incoming s') <= lenN (incoming s))%N).
Proof. exact c75_attempt. Qed.
Print Assumptions C75_attempt.

(** C75: an attempt in vain reserves nothing, or what the first four bytes that have been received announce (or the first one to three, and
    then zeros, when there were not more). *)
Theorem C75_vain : forall s, let '(r, s', k) := read_stream_m s in r = None -> k <> 0%N ->
  exists n, (1 <= n <= 4)%nat /\ (n <= List.length (incoming s))%nat /\ (k + 1 = big_endian_value (firstn n (incoming s) ++ repeat 0 (4 - n)))%N.
Proof. exact c75_vain. Qed.
Print Assumptions C75_vain.

(** C75: a session for a piece: what its attempts reserve; those that bring a message reserve no more in total than has been received,
    and what the session ends with is no larger. *)
Theorem C75_piece : forall sha1 p fuel s pid ep i idx total,
  parse_socket_addr ep <> None -> get_total_length p i = Ret total ->
  (0 < i_piece_length i)%N -> (idx < piece_count total (i_piece_length i))%N -> (total + i_piece_length i <= 2 ^ 64)%N ->
  (idx < 2 ^ 32)%N -> (i_piece_length i < 2 ^ 32)%N -> (20 * N.to_nat idx + 20 <= List.length (i_pieces i))%nat ->
  (11 * List.length (incoming s) + 11 < fuel)%nat ->
  let ih := compute_info_hash sha1 i in
  let cut := third_write_fails s in
  let k := piece_count (N.min (i_piece_length i) (total - idx * i_piece_length i)) 16384 in
  let hash := firstn 20 (skipn (20 * N.to_nat idx) (i_pieces i)) in
  forall r, download sha1 p fuel (Some s) pid ep i idx = Ret r ->
  exists c en l, told_by s c /\ piece_ends ih cut k c en /\ piece_result sha1 hash en r /\
    reserves s c l /\ List.length l = List.length c /\ (octets (incoming s) -> Forall (fun n => (n < 2 ^ 32 - 1)%N) l) /\
    (used c l <= lenN (incoming s))%N /\ (forall d, en = Received d -> (lenN d <= used c l)%N).
Proof. exact c75_piece. Qed.
Print Assumptions C75_piece.

(** C75: the same for the metadata. *)
Theorem C75_metadata : forall fuel s pid ih ep, parse_socket_addr ep <> None -> (11 * List.length (incoming s) + 11 < fuel)%nat ->
  let cut := third_write_fails s in
  forall r, get_info fuel (Some s) pid ih ep = Ret r ->
  exists c en l, told_by s c /\ info_ends ih cut c en /\ info_result en r /\
    reserves s c l /\ List.length l = List.length c /\ (octets (incoming s) -> Forall (fun n => (n < 2 ^ 32 - 1)%N) l) /\
    (used c l <= lenN (incoming s))%N /\ (forall d, en = Received d -> (lenN d <= used c l)%N).
Proof. exact c75_metadata. Qed.
Print Assumptions C75_metadata.

(** C75: but attempts in vain are not limited by what has been received: five bytes reserve any amount below 4 GiB. *)
Theorem C75_attempt_limited_refuted : forall n id, (0 < n)%N -> (n < 2 ^ 32 - 1)%N ->
  exists s, incoming s = big_endian 4 (n + 1) ++ [id] /\ fst (fst (read_stream_m s)) = None /\ snd (read_stream_m s) = n.
Proof. exact c75_five. Qed.
Print Assumptions C75_attempt_limited_refuted.

(** C75: nor is the queue of pieces limited by the description: one of 80 bytes, with one byte of hashes, makes it as long as one likes. *)
Theorem C75_queue_limited_refuted : forall p shuffle a ep n, ta_info a = None -> (n < 2 ^ 64)%N ->
  exists text i a', (List.length text <= 80)%nat /\ info_from_bytes text = Ret (Ok i) /\ i_pieces i = s2b "h" /\
    handle p (Ret (Some i)) shuffle a (PeerFound ep) = Ret (a', []) /\ exists q, ta_pool a' = Some q /\ lenN q = n.
Proof. exact c75_pool. Qed.
Print Assumptions C75_queue_limited_refuted.

(** A session of 73 received bytes that reserves 4294967294. *)
Example C75_example :
  let i := ex_info (ex_sha1 [1; 2; 3]%N ++ ex_sha1 [4; 5]%N) in
  let s := ex_socket (handshake_layout (compute_info_hash ex_sha1 i) (repeat 8%N 20) ++ [255; 255; 255; 255; 7]%N) in
  download ex_sha1 Debug (N.to_nat 5000) (Some s) (repeat 1%N 20) (s2b "10.0.0.1:6881") i 1 = Ret (Err MEPeerNotReady) /\
  lenN (incoming s) = 73%N /\ map snd (read_messages_m 3 s) = [68; 4294967294; 0]%N.
Proof. vm_compute. repeat split. Qed.
Example C75_example_message :
  let s := ex_socket (frame 7 [0; 0; 0; 1; 0; 0; 0; 0; 4; 5]%N ++ frame 1 []) in
  reserves s [Some (7, [0; 0; 0; 1; 0; 0; 0; 0; 4; 5]); Some (1, []); None]%N [10; 0; 0]%N /\ lenN (incoming s) = 20%N.
Proof. vm_compute. repeat split. Qed.

(** Two bytes, and then the connection is closed: what they announce with two zeros, and one byte less. *)
Example C75_example_vain : let s := {| st_avail := [1; 2]%N; st_closed := true; st_sched := []; st_wsched := []; st_sent := [] |} in
  fst (fst (read_stream_m s)) = None /\ snd (read_stream_m s) = (1 * 256 ^ 3 + 2 * 256 ^ 2 - 1)%N.
Proof. split; vm_compute; reflexivity. Qed.
