(** PropWrites: property C67 (writes that fail, and sessions that end) *)
From Verif Require Import Base ModelBencode ModelMessages ModelTorrent ModelTracker ModelStream ModelPeer
  SpecBencode SpecMessages SpecWriter SpecStream SpecPeer SpecSession SpecWrites PropPeer ProofWrites.

(** C67: the result of a session for a piece does not depend on whether writes succeed, except for the third one. *)
Theorem C67_piece_result : forall sha1 p fuel s s' pid ep i idx, same_input s s' -> ~ third_write_fails s -> ~ third_write_fails s' ->
  download sha1 p fuel (Some s) pid ep i idx = download sha1 p fuel (Some s') pid ep i idx.
Proof. exact c67_piece. Qed.
Print Assumptions C67_piece_result.

(** C67: the same for a session for the metadata. *)
Theorem C67_metadata_result : forall fuel s s' pid ih ep, same_input s s' -> ~ third_write_fails s -> ~ third_write_fails s' ->
  get_info fuel (Some s) pid ih ep = get_info fuel (Some s') pid ih ep.
Proof. exact c67_metadata. Qed.
Print Assumptions C67_metadata_result.

(** C67: if the third write fails, the session fails with this error exactly if the remote end greeted properly; else nothing changes. *)
Theorem C67_third_write_piece : forall sha1 p fuel s pid ep i idx, parse_socket_addr ep <> None -> third_write_fails s ->
  (greets s (compute_info_hash sha1 i) -> download sha1 p fuel (Some s) pid ep i idx = Ret (Err MEHandshakeMetadata)) /\
  (~ greets s (compute_info_hash sha1 i) -> forall s', same_input s s' -> download sha1 p fuel (Some s) pid ep i idx = download sha1 p fuel (Some s') pid ep i idx).
Proof. exact c67_third_piece. Qed.
Print Assumptions C67_third_write_piece.

(** C67: the same for the metadata. *)
Theorem C67_third_write_metadata : forall fuel s pid ih ep, parse_socket_addr ep <> None -> third_write_fails s ->
  (greets s ih -> get_info fuel (Some s) pid ih ep = Ret (Err MEHandshakeMetadata)) /\
  (~ greets s ih -> forall s', same_input s s' -> get_info fuel (Some s) pid ih ep = get_info fuel (Some s') pid ih ep).
Proof. exact c67_third_metadata. Qed.
Print Assumptions C67_third_write_metadata.

(** C67: so a peer that cooperates gives the piece (C48) even if every other write fails ... *)
Theorem C67_piece_obtained : forall sha1 p fuel s pid ep i idx total opening rest, ~ third_write_fails s ->
  ModelTracker.parse_socket_addr ep <> None -> get_total_length p i = Ret total ->
  (0 < i_piece_length i)%N -> (idx < piece_count total (i_piece_length i))%N -> (total + i_piece_length i <= 2 ^ 64)%N ->
  (idx < 2 ^ 32)%N -> (i_piece_length i < 2 ^ 32)%N ->
  cooperates (compute_info_hash sha1 i) some_size s opening rest -> blocks opening = [] ->
  lenN (blocks rest) = piece_count (N.min (i_piece_length i) (total - idx * i_piece_length i)) 16384 ->
  (20 * N.to_nat idx + 20 <= List.length (i_pieces i))%nat ->
  sha1 (List.concat (blocks rest)) = firstn 20 (skipn (20 * N.to_nat idx) (i_pieces i)) ->
  (List.length (opening ++ rest) <= fuel)%nat ->
  download sha1 p fuel (Some s) pid ep i idx = Ret (Ok (List.concat (blocks rest))).
Proof. exact c67_piece_obtained. Qed.
Print Assumptions C67_piece_obtained.

(** C67: ... or the metadata (C49). *)
Theorem C67_metadata_obtained : forall fuel s pid ep ih n opening rest l i, ~ third_write_fails s -> ModelTracker.parse_socket_addr ep <> None ->
  (0 < n)%N -> (n < 2 ^ 64)%N -> cooperates ih (this_size n) s opening rest ->
  metadata_blocks opening [] -> metadata_blocks rest l -> lenN l = piece_count n 16384 ->
  info_from_bytes (List.concat l) = Ret (Ok i) -> (List.length (opening ++ rest) <= fuel)%nat ->
  get_info fuel (Some s) pid ih ep = Ret (Ok i).
Proof. exact c67_metadata_obtained. Qed.
Print Assumptions C67_metadata_obtained.

(** C67: a whole session for a piece with a remote end that sends finitely many bytes returns, whatever happens to the writes,
    unless it meets a message that aborts it or on which it hangs. *)
Theorem C67_piece_session_ends : forall sha1 p fuel s pid ep i idx total,
  parse_socket_addr ep <> None -> get_total_length p i = Ret total ->
  (0 < i_piece_length i)%N -> (idx < piece_count total (i_piece_length i))%N -> (total + i_piece_length i <= 2 ^ 64)%N ->
  (idx < 2 ^ 32)%N -> (i_piece_length i < 2 ^ 32)%N -> (20 * N.to_nat idx + 20 <= List.length (i_pieces i))%nat ->
  (11 * List.length (incoming s) + 11 < fuel)%nat ->
  (exists r, download sha1 p fuel (Some s) pid ep i idx = Ret r) \/
  (exists body id len, meets s (body, id, len) /\
     ((download sha1 p fuel (Some s) pid ep i idx = Panic /\ unreadable body id) \/
      (download sha1 p fuel (Some s) pid ep i idx = OutOfFuel /\ endless body id))).
Proof. exact c67_piece_ends. Qed.
Print Assumptions C67_piece_session_ends.

(** C67: so does a session for the metadata; it also aborts if a size is stated without the extension ut_metadata, and aborts or
    hangs if the decoder does so on the blocks received. *)
Theorem C67_metadata_session_ends : forall fuel s pid ih ep, parse_socket_addr ep <> None -> (11 * List.length (incoming s) + 11 < fuel)%nat ->
  let o := get_info fuel (Some s) pid ih ep in
  (exists r, o = Ret r) \/
  (exists body id len, meets s (body, id, len) /\ ((o = Panic /\ unreadable body id) \/ (o = OutOfFuel /\ endless body id))) \/
  (o = Panic /\ exists m n e, meets_message s m /\ states_size m = Some (n, e) /\ hm_get e (s2b "ut_metadata") = None) \/
  (exists ds, Forall (fun d => exists m e, meets_message s m /\ msg_content m = CExtension e /\ ex_msg_type e = Some 1%N /\ ex_get_data e = d) ds /\
     ((o = Panic /\ decode (List.concat ds) = Panic) \/ (o = OutOfFuel /\ decode (List.concat ds) = OutOfFuel))).
Proof. exact c67_metadata_ends. Qed.
Print Assumptions C67_metadata_session_ends.

Definition ex_writes (s : stream) (w : list (option nat)) : stream :=
  {| st_avail := st_avail s; st_closed := st_closed s; st_sched := st_sched s; st_wsched := w; st_sent := [] |}.
Example C67_example :
  let i := ex_info (ex_sha1 [1; 2; 3]%N ++ ex_sha1 [4; 5]%N) in
  let run w := download ex_sha1 Debug 50 (Some (ex_writes (ex_remote i [4; 5]%N) w)) (repeat 1%N 20) (s2b "10.0.0.1:6881") i 1 in
  run [Some 3; Some 0; None; Some 7]%nat = Ret (Ok [4; 5]%N) /\ run [None; None; Some 60]%nat = Ret (Err MEHandshakeMetadata).
Proof. vm_compute. split; reflexivity. Qed.
(** A connection on which each of the outcomes of [C67_metadata_session_ends] is seen. *)
Example C67_ends_example :
  let run b := get_info 5000 (Some (ex_socket (ex_handshake ++ b))) (repeat 1%N 20) ex_hash (s2b "10.0.0.1:6881") in
  let size := frame 20 (0%N :: s2b "d1:md11:ut_metadatai3ee13:metadata_sizei5ee") in
  let data b := frame 20 (3%N :: s2b "d8:msg_typei1e5:piecei0ee" ++ b) in
  run [] = Ret (Err MEPeerNotReady) /\ run (frame 7 [1; 2; 3]%N) = Panic /\
  run (frame 20 (0%N :: s2b "d13:metadata_sizei5ee") ++ frame 1 []) = Panic /\
  run (size ++ frame 1 [] ++ data (s2b "d1:a")) = Panic /\ run (size ++ frame 1 [] ++ data (s2b "de")) = Ret (Err (MEInfo (IEMetainfo (NoKeyInDictionary (s2b "pieces"))))).
Proof. vm_compute. repeat split. Qed.
