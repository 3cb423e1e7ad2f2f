(** PropClock: property C72 (sessions in time) *)
From Verif Require Import Base ModelBencode ModelMessages ModelTorrent ModelTracker ModelStream ModelPeer ModelClock
  SpecBencode SpecMessages SpecWriter SpecStream SpecPeer SpecSession SpecWrites SpecVerdict SpecClock PropPeer PropVerdict ProofTime ProofLasts.

(** C72: an attempt to read takes at most eight seconds, whatever the other end does, and one tenth of a second if nothing
    comes, in which case it brings nothing. *)
Theorem C72_attempt : forall c, (ck_now c <= over_at 1 c <= ck_now c + 8000)%N /\
  forall ms k, quiet_for ms c -> (100 * N.of_nat k <= ms)%N -> attempts k c = repeat None k /\ over_at k c = (ck_now c + 100 * N.of_nat k)%N.
Proof. exact c72_attempt. Qed.
Print Assumptions C72_attempt.

(** C72: the bound is reached. *)
Example C72_example_attempt :
  let c := opened_at 0 [(100%N, TData [0; 0; 0; 2]%N); (200%N, TData [7%N])] [] in attempts 1 c = [None] /\ over_at 1 c = 8000%N.
Proof. vm_compute. split; reflexivity. Qed.

(** C72: what the attempts find in time is what a session without a clock finds. *)
Theorem C72_same_socket : forall n now evs ws, delivers (socket_of n (opened_at now evs ws)) (attempts n (opened_at now evs ws)).
Proof. exact (fun n now evs ws => attempts_delivered n (opened_at now evs ws) eq_refl). Qed.
Print Assumptions C72_same_socket.

(** C72: a session for a piece that returns does so after a number of attempts that is limited by the number of messages that
    came; it takes no longer than that many attempts take. *)
Theorem C72_piece : forall sha1 p fuel n now evs ws pid ep i idx total,
  parse_socket_addr ep <> None -> get_total_length p i = Ret total ->
  (0 < i_piece_length i)%N -> (idx < piece_count total (i_piece_length i))%N -> (total + i_piece_length i <= 2 ^ 64)%N ->
  (idx < 2 ^ 32)%N -> (i_piece_length i < 2 ^ 32)%N -> (20 * N.to_nat idx + 20 <= List.length (i_pieces i))%nat ->
  (11 * List.length (sent_bytes evs) + 11 < fuel)%nat -> (22 + 10 * List.length (sent_bytes evs) <= n)%nat ->
  let c := opened_at now evs ws in
  let ih := compute_info_hash sha1 i in
  let cut := exists n, nth_error ws 2 = Some (Some n) in
  let blks := piece_count (N.min (i_piece_length i) (total - idx * i_piece_length i)) 16384 in
  let hash := firstn 20 (skipn (20 * N.to_nat idx) (i_pieces i)) in
  forall r, download sha1 p fuel (Some (socket_of n c)) pid ep i idx = Ret r <->
    exists k en, Forall legible (attempts k c) /\ piece_ends ih cut blks (attempts k c) en /\ piece_result sha1 hash en r /\
      (k <= 22 + 10 * messages (attempts k c))%nat /\ (messages (attempts k c) <= List.length (sent_bytes evs))%nat /\
      (over_at k c <= now + 8000 * N.of_nat k)%N.
Proof. exact c72_piece. Qed.
Print Assumptions C72_piece.

(** C72: the same for a session for the metadata. *)
Theorem C72_metadata : forall fuel n now evs ws pid ih ep, parse_socket_addr ep <> None ->
  (11 * List.length (sent_bytes evs) + 11 < fuel)%nat -> (22 + 10 * List.length (sent_bytes evs) <= n)%nat ->
  let c := opened_at now evs ws in
  let cut := exists n, nth_error ws 2 = Some (Some n) in
  forall r, get_info fuel (Some (socket_of n c)) pid ih ep = Ret r <->
    exists k en, Forall legible (attempts k c) /\ info_ends ih cut (attempts k c) en /\ info_result en r /\
      (k <= 22 + 10 * messages (attempts k c))%nat /\ (messages (attempts k c) <= List.length (sent_bytes evs))%nat /\
      (over_at k c <= now + 8000 * N.of_nat k)%N.
Proof. exact c72_metadata. Qed.
Print Assumptions C72_metadata.

(** C72: a peer from which nothing comes within a tenth of a second is given up, for pieces and for metadata alike. *)
Theorem C72_far_peer : forall sha1 p fuel n now evs ws pid ep i idx total,
  parse_socket_addr ep <> None -> get_total_length p i = Ret total ->
  (0 < i_piece_length i)%N -> (idx < piece_count total (i_piece_length i))%N -> (total + i_piece_length i <= 2 ^ 64)%N ->
  (idx < 2 ^ 32)%N -> (i_piece_length i < 2 ^ 32)%N -> (20 * N.to_nat idx + 20 <= List.length (i_pieces i))%nat ->
  (11 * List.length (sent_bytes evs) + 11 < fuel)%nat -> (1 <= n)%nat -> Forall (fun e => now + 100 < fst e)%N evs ->
  let c := opened_at now evs ws in
  download sha1 p fuel (Some (socket_of n c)) pid ep i idx = Ret (Err MEHandshake) /\
  (forall ih, get_info fuel (Some (socket_of n c)) pid ih ep = Ret (Err MEHandshake)) /\ over_at 1 c = (now + 100)%N.
Proof. exact c72_far. Qed.
Print Assumptions C72_far_peer.

(** C72: a session that goes on is over, with a result, 1.1 seconds after the last sign of life at the latest. *)
Theorem C72_silence_piece : forall sha1 p fuel n now evs ws pid ep i idx total k,
  parse_socket_addr ep <> None -> get_total_length p i = Ret total ->
  (0 < i_piece_length i)%N -> (idx < piece_count total (i_piece_length i))%N -> (total + i_piece_length i <= 2 ^ 64)%N ->
  (idx < 2 ^ 32)%N -> (i_piece_length i < 2 ^ 32)%N -> (20 * N.to_nat idx + 20 <= List.length (i_pieces i))%nat ->
  (11 * List.length (sent_bytes evs) + 11 < fuel)%nat -> (k + 11 <= n)%nat ->
  let c := opened_at now evs ws in
  let ih := compute_info_hash sha1 i in
  let cut := exists n, nth_error ws 2 = Some (Some n) in
  let blks := piece_count (N.min (i_piece_length i) (total - idx * i_piece_length i)) 16384 in
  let hash := firstn 20 (skipn (20 * N.to_nat idx) (i_pieces i)) in
  Forall legible (attempts k c) -> piece_pending ih cut blks (attempts k c) -> quiet_for 1100 (snd (listen k c)) ->
  exists j en r, (1 <= j <= 11)%nat /\ piece_ends ih cut blks (attempts (k + j) c) en /\ piece_result sha1 hash en r /\
    download sha1 p fuel (Some (socket_of n c)) pid ep i idx = Ret r /\ over_at (k + j) c = (over_at k c + 100 * N.of_nat j)%N.
Proof. exact c72_silence. Qed.
Print Assumptions C72_silence_piece.

Theorem C72_silence_metadata : forall fuel n now evs ws pid ih ep k, parse_socket_addr ep <> None ->
  (11 * List.length (sent_bytes evs) + 11 < fuel)%nat -> (k + 11 <= n)%nat ->
  let c := opened_at now evs ws in
  let cut := exists n, nth_error ws 2 = Some (Some n) in
  Forall legible (attempts k c) -> info_pending ih cut (attempts k c) -> quiet_for 1100 (snd (listen k c)) ->
  exists j en, (1 <= j <= 11)%nat /\ info_ends ih cut (attempts (k + j) c) en /\
    (forall r, get_info fuel (Some (socket_of n c)) pid ih ep = Ret r -> info_result en r) /\ over_at (k + j) c = (over_at k c + 100 * N.of_nat j)%N.
Proof. exact c72_silence_metadata. Qed.
Print Assumptions C72_silence_metadata.

(** C72: there is no limit to the duration of a session: for every duration there is a peer, sending nothing of use, with which a
    session for any piece takes that long before it returns. *)
Theorem C72_limit_refuted : forall sha1 p now T pid (pid' : bytes) ep i idx total,
  (forall x, List.length (sha1 x) = 20%nat) -> List.length pid' = 20%nat ->
  parse_socket_addr ep <> None -> get_total_length p i = Ret total ->
  (0 < i_piece_length i)%N -> (idx < piece_count total (i_piece_length i))%N -> (total + i_piece_length i <= 2 ^ 64)%N ->
  (idx < 2 ^ 32)%N -> (i_piece_length i < 2 ^ 32)%N -> (20 * N.to_nat idx + 20 <= List.length (i_pieces i))%nat ->
  let ih := compute_info_hash sha1 i in
  let blks := piece_count (N.min (i_piece_length i) (total - idx * i_piece_length i)) 16384 in
  exists evs fuel n k en r,
    let c := opened_at now evs [] in
    (22 + 10 * List.length (sent_bytes evs) <= n)%nat /\
    download sha1 p fuel (Some (socket_of n c)) pid ep i idx = Ret r /\
    piece_ends ih (exists n, nth_error (@nil (option nat)) 2 = Some (Some n)) blks (attempts k c) en /\
    piece_result sha1 (firstn 20 (skipn (20 * N.to_nat idx) (i_pieces i))) en r /\
    (now + T <= over_at k c)%N.
Proof. exact c72_unlimited. Qed.
Print Assumptions C72_limit_refuted.

(** The same peer, once near and once 150 milliseconds away; a peer whose block comes in two halves; one that takes a break of
    more than a second. *)
Definition ex_timed (evs : list (N * tick)) : outcome (result bytes manager_error) :=
  let i := ex_info (ex_sha1 [1; 2; 3]%N ++ ex_sha1 [4; 5]%N) in
  download ex_sha1 Debug (N.to_nat 5000) (Some (socket_of 60 (opened_at 0 evs []))) (repeat 1%N 20) (s2b "10.0.0.1:6881") i 1.
Definition ex_answers (rtt : N) : list (N * tick) :=
  let hs := handshake_layout (compute_info_hash ex_sha1 (ex_info (ex_sha1 [1; 2; 3]%N ++ ex_sha1 [4; 5]%N))) (repeat 8%N 20) in
  [(rtt, TData hs); (rtt + 20, TData ex_size)%N; (rtt + 40, TData (frame 1 []))%N].
Example C72_example :
  let a := ex_answers 60 in
  let block := ex_block [4; 5]%N in
  ex_timed (a ++ [(400%N, TData block)]) = Ret (Ok [4; 5]%N) /\
  ex_timed (ex_answers 150 ++ [(400%N, TData block)]) = Ret (Err MEHandshake) /\
  ex_timed (a ++ [(400%N, TData (firstn 14 block)); (900%N, TData (skipn 14 block))]) = Ret (Ok [4; 5]%N) /\
  ex_timed (a ++ [(1600%N, TData block)]) = Ret (Err (MEPieceDownloadFailure Idle)).
Proof. vm_compute. repeat split; reflexivity. Qed.
