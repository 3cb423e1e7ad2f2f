(** PropVerdict: property C70 (what is received decides how a session ends) *)
From Verif Require Import Base ModelBencode ModelMessages ModelTorrent ModelTracker ModelStream ModelPeer
  SpecBencode SpecMessages SpecWriter SpecStream SpecPeer SpecSession SpecWrites SpecVerdict PropPeer ProofWrites ProofExactly.

(** C70: a session for a piece returns exactly the result that the attempts to read decide, and it aborts, or never ends,
    exactly if a message that does so comes while the session goes on. *)
Theorem C70_piece : forall sha1 p fuel s pid ep i idx total,
  parse_socket_addr ep <> None -> get_total_length p i = Ret total ->
  (0 < i_piece_length i)%N -> (idx < piece_count total (i_piece_length i))%N -> (total + i_piece_length i <= 2 ^ 64)%N ->
  (idx < 2 ^ 32)%N -> (i_piece_length i < 2 ^ 32)%N -> (20 * N.to_nat idx + 20 <= List.length (i_pieces i))%nat ->
  (11 * List.length (incoming s) + 11 < fuel)%nat ->
  let ih := compute_info_hash sha1 i in
  let cut := third_write_fails s in
  let k := piece_count (N.min (i_piece_length i) (total - idx * i_piece_length i)) 16384 in
  let hash := firstn 20 (skipn (20 * N.to_nat idx) (i_pieces i)) in
  (forall r, download sha1 p fuel (Some s) pid ep i idx = Ret r <->
     exists c en, told_by s c /\ piece_ends ih cut k c en /\ piece_result sha1 hash en r) /\
  (download sha1 p fuel (Some s) pid ep i idx = Panic <-> exists c, piece_pending ih cut k c /\ then_aborts s c) /\
  (download sha1 p fuel (Some s) pid ep i idx = OutOfFuel <-> exists c, piece_pending ih cut k c /\ then_hangs s c).
Proof. exact c70_piece. Qed.
Print Assumptions C70_piece.

(** C70: the same for a session for the metadata; it also aborts if the peer is to be asked and never named the extension, and
    aborts, or never ends, if the description received does that to the decoder. *)
Theorem C70_metadata : forall fuel s pid ih ep, parse_socket_addr ep <> None -> (11 * List.length (incoming s) + 11 < fuel)%nat ->
  let cut := third_write_fails s in
  (forall r, get_info fuel (Some s) pid ih ep = Ret r <-> exists c en, told_by s c /\ info_ends ih cut c en /\ info_result en r) /\
  (get_info fuel (Some s) pid ih ep = Panic <-> (exists c, info_pending ih cut c /\ then_aborts s c) \/
     exists c en, told_by s c /\ info_ends ih cut c en /\ (en = Nameless \/ exists d, en = Received d /\ info_from_bytes d = Panic)) /\
  (get_info fuel (Some s) pid ih ep = OutOfFuel <-> (exists c, info_pending ih cut c /\ then_hangs s c) \/
     exists c d, told_by s c /\ info_ends ih cut c (Received d) /\ info_from_bytes d = OutOfFuel).
Proof. exact c70_metadata. Qed.
Print Assumptions C70_metadata.

(** C70: at most one ending, at one moment, fits what is received. *)
Theorem C70_one_ending : forall s ih cut c en c' en', told_by s c -> told_by s c' ->
  (forall k, piece_ends ih cut k c en -> piece_ends ih cut k c' en' -> c = c' /\ en = en') /\
  (info_ends ih cut c en -> info_ends ih cut c' en' -> c = c' /\ en = en').
Proof. exact c70_one. Qed.
Print Assumptions C70_one_ending.

(** The outcomes of a session for the second piece of a torrent, by what follows the handshake. *)
Definition ex_size : bytes := frame 20 (0%N :: s2b "d13:metadata_sizei1ee").
Definition ex_block (d : bytes) : bytes := frame 7 ([0; 0; 0; 1; 0; 0; 0; 0]%N ++ d).
Definition ex_verdict (after : bytes) : outcome (result bytes manager_error) :=
  let i := ex_info (ex_sha1 [1; 2; 3]%N ++ ex_sha1 [4; 5]%N) in
  download ex_sha1 Debug (N.to_nat 5000)
    (Some (ex_socket (handshake_layout (compute_info_hash ex_sha1 i) (repeat 8%N 20) ++ after))) (repeat 1%N 20) (s2b "10.0.0.1:6881") i 1.
Example C70_example :
  ex_verdict [] = Ret (Err MEPeerNotReady) /\
  ex_verdict (frame 1 [] ++ ex_size ++ ex_block [4; 5]%N) = Ret (Ok [4; 5]%N) /\
  ex_verdict (ex_size ++ ex_block [4; 5]%N ++ frame 1 []) = Ret (Err (MEPieceDownloadFailure Idle)) /\
  ex_verdict (ex_size ++ frame 1 [] ++ ex_block [5; 4]%N ++ ex_block [4; 5]%N) = Ret (Err MEPieceVerificationFailure) /\
  ex_verdict (frame 1 [] ++ ex_size ++ frame 20 [1%N; 120%N] ++ frame 0 [] ++ ex_block [4; 5]%N) = Ret (Err (MEPieceDownloadFailure ChokedPeer)) /\
  ex_verdict (frame 1 [] ++ frame 7 [1%N]) = Panic.
Proof. vm_compute. repeat split. Qed.

(** The first choke after the opening ends that session. *)
Example C70_example_choked :
  let i := ex_info (ex_sha1 [1; 2; 3]%N ++ ex_sha1 [4; 5]%N) in
  let hs := handshake_layout (compute_info_hash ex_sha1 i) (repeat 8%N 20) in
  let s := ex_socket (hs ++ frame 1 [] ++ ex_size ++ frame 0 [] ++ ex_block [4; 5]%N) in
  exists c, told_by s c /\ piece_ends (compute_info_hash ex_sha1 i) (third_write_fails s) 1 c ChokedUs.
Proof.
  intros i hs s. pose proof (C70_piece ex_sha1 Debug (N.to_nat 5000) s (repeat 1%N 20) (s2b "10.0.0.1:6881") i 1 5) as H. cbn zeta in H.
  destruct H as [H _]; [vm_compute; discriminate|vm_compute; reflexivity|vm_compute; reflexivity|vm_compute; reflexivity|vm_compute; discriminate
    |vm_compute; reflexivity|vm_compute; reflexivity|apply Nat.leb_le; vm_compute; reflexivity|apply Nat.ltb_lt; vm_compute; reflexivity|].
  destruct (proj1 (H (Err (MEPieceDownloadFailure ChokedPeer)))) as (c & en & T & E & R); [vm_compute; reflexivity|].
  exists c. split; [exact T|]. inversion R; subst. exact E.
Qed.
