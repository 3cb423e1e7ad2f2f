(** PropNear: property C73 (near peers that keep talking) *)
From Verif Require Import Base ModelBencode ModelMessages ModelTorrent ModelTracker ModelStream ModelPeer ModelClock
  SpecBencode SpecMessages SpecWriter SpecStream SpecPeer SpecSession SpecVerdict SpecClock SpecNear PropPeer PropClock ProofSuffices.

(** C73: a peer whose handshake arrives within a tenth of a second, which then never pauses for more than a second, which unchokes
    us and states a metadata size soon, and sends as many blocks as the piece has, with the right hash, gives the piece; the session
    is over at most 200 milliseconds after the last message. *)
Theorem C73_piece : forall sha1 p fuel n pid ep i idx total now t0 h opening rest,
  parse_socket_addr ep <> None -> get_total_length p i = Ret total ->
  (0 < i_piece_length i)%N -> (idx < piece_count total (i_piece_length i))%N -> (total + i_piece_length i <= 2 ^ 64)%N ->
  (idx < 2 ^ 32)%N -> (i_piece_length i < 2 ^ 32)%N -> (20 * N.to_nat idx + 20 <= List.length (i_pieces i))%nat ->
  let ih := compute_info_hash sha1 i in
  let evs := from_near t0 h (opening ++ rest) in
  let c := opened_at now evs [] in
  let blks := piece_count (N.min (i_piece_length i) (total - idx * i_piece_length i)) 16384 in
  let data := List.concat (blocks (told rest)) in
  (11 * List.length (sent_bytes evs) + 11 < fuel)%nat -> (22 + 10 * List.length (sent_bytes evs) <= n)%nat ->
  near ih some_size now t0 h opening rest -> blocks (told opening) = [] -> countN (blocks (told rest)) = blks ->
  sha1 data = firstn 20 (skipn (20 * N.to_nat idx) (i_pieces i)) ->
  download sha1 p fuel (Some (socket_of n c)) pid ep i idx = Ret (Ok data) /\
  exists k, piece_ends ih False blks (attempts k c) (Received data) /\ (over_at k c <= last_time t0 (opening ++ rest) + 200)%N.
Proof. exact c73_piece. Qed.
Print Assumptions C73_piece.

(** C73: the same for metadata. *)
Theorem C73_metadata : forall fuel n pid ep ih size now t0 h opening rest l i, parse_socket_addr ep <> None ->
  (0 < size)%N -> (size < 2 ^ 64)%N ->
  let evs := from_near t0 h (opening ++ rest) in
  let c := opened_at now evs [] in
  (11 * List.length (sent_bytes evs) + 11 < fuel)%nat -> (22 + 10 * List.length (sent_bytes evs) <= n)%nat ->
  near ih (this_size size) now t0 h opening rest -> metadata_blocks (told opening) [] -> metadata_blocks (told rest) l ->
  countN l = piece_count size 16384 -> info_from_bytes (List.concat l) = Ret (Ok i) ->
  get_info fuel (Some (socket_of n c)) pid ih ep = Ret (Ok i) /\
  exists k d, info_ends ih False (attempts k c) (Received d) /\ info_from_bytes d = Ret (Ok i) /\ (over_at k c <= last_time t0 (opening ++ rest) + 200)%N.
Proof. exact c73_metadata. Qed.
Print Assumptions C73_metadata.

(** C73: so does every seed at such a distance, whatever the moments at which its messages arrive. *)
Theorem C73_seed : forall sha1 p fuel n pid pid' ep i idx total blks now t0 l,
  parse_socket_addr ep <> None -> get_total_length p i = Ret total ->
  (0 < i_piece_length i)%N -> (idx < piece_count total (i_piece_length i))%N -> (total + i_piece_length i <= 2 ^ 64)%N ->
  (idx < 2 ^ 32)%N -> (i_piece_length i < 2 ^ 32)%N -> (20 * N.to_nat idx + 20 <= List.length (i_pieces i))%nat ->
  (forall b, List.length (sha1 b) = 20%nat) -> List.length pid' = 20%nat ->
  Forall (fun b => lenN b <= 16384)%N blks ->
  countN blks = piece_count (N.min (i_piece_length i) (total - idx * i_piece_length i)) 16384 ->
  sha1 (List.concat blks) = firstn 20 (skipn (20 * N.to_nat idx) (i_pieces i)) ->
  let ih := compute_info_hash sha1 i in
  let evs := from_near t0 (handshake_layout ih pid') l in
  let c := opened_at now evs [] in
  map snd l = seed_messages idx blks -> (now < t0 <= now + 100)%N -> steady 1000 t0 l -> (last_time t0 (firstn 2 l) < t0 + 900)%N ->
  (11 * List.length (sent_bytes evs) + 11 < fuel)%nat -> (22 + 10 * List.length (sent_bytes evs) <= n)%nat ->
  download sha1 p fuel (Some (socket_of n c)) pid ep i idx = Ret (Ok (List.concat blks)) /\
  exists k, piece_ends ih False (countN blks) (attempts k c) (Received (List.concat blks)) /\ (over_at k c <= last_time t0 l + 200)%N.
Proof. exact c73_seed. Qed.
Print Assumptions C73_seed.

(** A seed the block of which comes a second after everything else; the same seed with a pause that is too long, and with an
    unchoke message that comes too late. *)
Definition ex_near (a b d : N) : stamped := combine [a; b; d] (seed_messages 1 [[4; 5]%N]).
Definition ex_near_events (t0 : N) (l : stamped) : list (N * tick) :=
  from_near t0 (handshake_layout (compute_info_hash ex_sha1 (ex_info (ex_sha1 [1; 2; 3]%N ++ ex_sha1 [4; 5]%N))) (repeat 8%N 20)) l.
Example C73_example :
  map snd (ex_near 60 140 1140) = seed_messages 1 [[4; 5]%N] /\ steady 1000 60 (ex_near 60 140 1140) /\
  (last_time 60 (firstn 2 (ex_near 60 140 1140)) < 60 + 900)%N /\
  ex_timed (ex_near_events 60 (ex_near 60 140 1140)) = Ret (Ok [4; 5]%N) /\
  over_at 13 (opened_at 0 (ex_near_events 60 (ex_near 60 140 1140)) []) = 1140%N /\
  ex_timed (ex_near_events 60 (ex_near 60 140 1340)) = Ret (Err (MEPieceDownloadFailure Idle)) /\
  ex_timed (ex_near_events 60 (ex_near 60 1300 1340)) = Ret (Err MEPeerNotReady).
Proof.
  split; [reflexivity|]. split; [repeat (constructor; [vm_compute; split; discriminate|]); constructor|]. vm_compute. auto 10.
Qed.
