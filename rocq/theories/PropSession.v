(** PropSession: properties C47-C50 (extension messages, and sessions with peers that cooperate) *)
From Coq Require Import Permutation.
From Verif Require Import Base ModelBencode ModelMessages ModelTorrent ModelStream ModelPeer ModelWriter ModelActors
  SpecBencode SpecTorrent SpecMessages SpecStream SpecWriter SpecPieces SpecPeer SpecSystem SpecSession PropPeer PropSystem ProofSession.

(** C47: an extension message is its id, a dictionary and whatever follows the dictionary. *)
Theorem C47_extension_message : forall id d data, decodable is_text (BDict d) -> distinct_keys (BDict d) ->
  exists e, extension_from_bytes (id :: benc (BDict d) ++ data) = Ret (Ok e) /\ ex_id e = id /\ ex_get_data e = data /\
    ex_msg_type e = int_at d (s2b "msg_type") /\ ex_get_metadata_size e = int_at d (s2b "metadata_size") /\
    ex_piece e = int_at d (s2b "piece") /\
    (forall k, hm_get (ex_get_extensions e) k = option_map (fun n => n mod 256)%N (int_at (dict_at d (s2b "m")) k)).
Proof. exact c47. Qed.
Print Assumptions C47_extension_message.

Example C47_example :
  let d := [(s2b "m", BDict [(s2b "ut_metadata", BInt 259); (s2b "v", BStr (s2b "x"))]); (s2b "msg_type", BInt 1); (s2b "piece", BInt 7)] in
  match extension_from_bytes (2%N :: benc (BDict d) ++ s2b "d3:e") with
  | Ret (Ok e) => ex_get_data e = s2b "d3:e" /\ ex_msg_type e = Some 1%N /\ ex_get_metadata_size e = None /\ ex_piece e = Some 7%N /\
                  ex_get_extensions e = [(s2b "ut_metadata", 3%N)]
  | _ => False
  end.
Proof. vm_compute. auto 10. Qed.

(** C48: a peer that cooperates and sends as many blocks as the piece has, which together have the
    right hash, always gives the piece. *)
Theorem C48_piece_obtained : forall sha1 p fuel s pid ep i idx total opening rest, st_wsched s = [] ->
  ModelTracker.parse_socket_addr ep <> None -> get_total_length p i = Ret total ->
  (0 < i_piece_length i)%N -> (idx < piece_count total (i_piece_length i))%N -> (total + i_piece_length i <= 2 ^ 64)%N ->
  (idx < 2 ^ 32)%N -> (i_piece_length i < 2 ^ 32)%N ->
  cooperates (compute_info_hash sha1 i) some_size s opening rest -> blocks opening = [] ->
  lenN (blocks rest) = piece_count (N.min (i_piece_length i) (total - idx * i_piece_length i)) 16384 ->
  (20 * N.to_nat idx + 20 <= List.length (i_pieces i))%nat ->
  sha1 (List.concat (blocks rest)) = firstn 20 (skipn (20 * N.to_nat idx) (i_pieces i)) ->
  (List.length (opening ++ rest) <= fuel)%nat ->
  download sha1 p fuel (Some s) pid ep i idx = Ret (Ok (List.concat (blocks rest))).
Proof. exact c48. Qed.
Print Assumptions C48_piece_obtained.

(** C48: messages that are already there make such a peer. *)
Theorem C48_buffered_peer : forall ih size s h opening rest more, Forall (fun t => t <> TErr) (st_sched s) ->
  List.length h = 68%nat -> hd 0%N h = 19%N -> firstn 20 (skipn 28 h) = ih ->
  st_avail s = h ++ wire (opening ++ rest) ++ more -> Forall (fun m => short_body (snd m)) (opening ++ rest) ->
  (List.length opening <= 10)%nat -> (exists body, In (1%N, body) opening) ->
  (exists r m n e, In r opening /\ parsed r m /\ states_size m = Some (n, e)) ->
  (forall r, In r (opening ++ rest) -> well_behaved size r) ->
  cooperates ih size s (map Some opening) (map Some rest).
Proof. exact cooperates_buffered. Qed.
Print Assumptions C48_buffered_peer.

(** C48: so does a seed that sends the piece in blocks of at most 16 KiB. *)
Theorem C48_seed : forall sha1 p s pid pid' ep i idx total blks fuel,
  ModelTracker.parse_socket_addr ep <> None -> get_total_length p i = Ret total ->
  (0 < i_piece_length i)%N -> (idx < piece_count total (i_piece_length i))%N -> (total + i_piece_length i <= 2 ^ 64)%N ->
  (idx < 2 ^ 32)%N -> (i_piece_length i < 2 ^ 32)%N -> (forall b, List.length (sha1 b) = 20%nat) -> List.length pid' = 20%nat ->
  s = seed (compute_info_hash sha1 i) pid' idx blks -> Forall (fun b => lenN b <= 16384)%N blks ->
  lenN blks = piece_count (N.min (i_piece_length i) (total - idx * i_piece_length i)) 16384 ->
  (20 * N.to_nat idx + 20 <= List.length (i_pieces i))%nat ->
  sha1 (List.concat blks) = firstn 20 (skipn (20 * N.to_nat idx) (i_pieces i)) ->
  (List.length blks + 2 <= fuel)%nat ->
  download sha1 p fuel (Some s) pid ep i idx = Ret (Ok (List.concat blks)).
Proof. exact c48_seed. Qed.
Print Assumptions C48_seed.

(** C48: from every moment at which all workers live, a torrent whose content exists can be
    completed, whichever peers were reported; its files are then right. *)
Theorem C48_torrent_completes : forall sha1 p cwd ih d s i files T, reached sha1 p cwd ih d s -> requested (sy_trace s) <> [] ->
  ta_info (sy_actor s) = Some i -> describes sha1 i files T -> disk_ready cwd files d -> sy_workers s = 5%nat ->
  (forall b, List.length (sha1 b) = 20%nat) -> (lenN T + i_piece_length i <= 2 ^ 64)%N -> (i_piece_length i < 2 ^ 32)%N ->
  (piece_count (lenN T) (i_piece_length i) <= 2 ^ 32)%N ->
  (forall ep, In ep (reported s) -> ModelTracker.parse_socket_addr ep <> None) ->
  exists ops, Forall op_ok ops /\ let s' := sys_run sha1 p cwd s ops in
    Permutation (completed s') (numbers (piece_count (lenN T) (i_piece_length i))) /\
    (collision sha1 (i_piece_length i) T s' \/
     forall k f, nth_error files k = Some f -> (0 < f_length f)%N ->
       sy_disk s' (cwd ++ f_path f) = Some (NFile (file_content T files k f))).
Proof. exact c48_torrent. Qed.
Print Assumptions C48_torrent_completes.

(** A peer that speaks slowly: the messages arrive one at a time, with silent attempts in between. *)
Definition ex_slow (i : info) : stream :=
  {| st_avail := handshake_layout (compute_info_hash ex_sha1 i) (repeat 8%N 20); st_closed := false;
     st_sched := repeat (TData []) 5 ++ [TData (frame 1 [])] ++ repeat (TData []) 8 ++ [TData ex_extended] ++ repeat (TData []) 12
                 ++ [TData (frame 4 [0; 0; 0; 1]%N)] ++ repeat (TData []) 9 ++ [TData (block_of 1 0 [4; 5]%N)];
     st_wsched := []; st_sent := [] |}.

Example C48_example :
  let sizes := map (fun o => match o with Some (id, body) => Some (id, List.length body) | None => None end) in
  (exists opening rest, delivers (ex_slow ex_meta) (Some (19%N, handshake_layout (compute_info_hash ex_sha1 ex_meta) (repeat 8%N 20)) :: opening ++ rest) /\
     sizes opening = [None; None; Some (1%N, 0%nat); None; None; None; Some (20%N, 48%nat)] /\
     sizes rest = [None; None; None; None; None; None; None; Some (4%N, 4%nat); None; None; None; None; Some (7%N, 10%nat)] /\
     blocks rest = [[4; 5]%N]) /\
  download ex_sha1 Debug 21 (Some (ex_slow ex_meta)) (repeat 1%N 20) (s2b "10.0.0.1:6881") ex_meta 1 = Ret (Ok [4; 5]%N) /\
  download ex_sha1 Debug 3 (Some (seed (compute_info_hash ex_sha1 ex_meta) (repeat 8%N 20) 1 [[4; 5]%N])) (repeat 1%N 20) (s2b "10.0.0.1:6881") ex_meta 1
    = Ret (Ok [4; 5]%N).
Proof.
  split; [|split; vm_compute; reflexivity].
  set (c := map (option_map (fun v => match v with (body, id, _) => (id, body) end)) (fst (read_messages 21 (ex_slow ex_meta)))).
  exists (firstn 7 (tl c)), (skipn 7 (tl c)). vm_compute. auto.
Qed.

(** C49: a peer that cooperates and sends as many metadata blocks as the size it states gives the
    metadata. *)
Theorem C49_metadata_obtained : forall fuel s pid ep ih n opening rest l i, st_wsched s = [] -> ModelTracker.parse_socket_addr ep <> None ->
  (0 < n)%N -> (n < 2 ^ 64)%N -> cooperates ih (this_size n) s opening rest ->
  metadata_blocks opening [] -> metadata_blocks rest l -> lenN l = piece_count n 16384 ->
  info_from_bytes (List.concat l) = Ret (Ok i) -> (List.length (opening ++ rest) <= fuel)%nat ->
  get_info fuel (Some s) pid ih ep = Ret (Ok i).
Proof. exact c49. Qed.
Print Assumptions C49_metadata_obtained.

(** C49: so does a seed. *)
Theorem C49_seed : forall n ut_id, (0 < n < 2 ^ 64)%N -> (ut_id < 2 ^ 64)%N ->
  forall fuel pid pid' ep ih blks i, ModelTracker.parse_socket_addr ep <> None -> List.length ih = 20%nat -> List.length pid' = 20%nat ->
  Forall (fun b => lenN b <= 16384)%N blks -> lenN blks = piece_count n 16384 ->
  info_from_bytes (List.concat blks) = Ret (Ok i) -> (List.length blks + 2 <= fuel)%nat ->
  get_info fuel (Some (info_seed ih pid' n ut_id blks)) pid ih ep = Ret (Ok i).
Proof. exact c49_seed. Qed.
Print Assumptions C49_seed.

Definition ex_info_bytes : bytes := s2b "d6:lengthi5e4:name1:x12:piece lengthi3e6:pieces4:abcde".
Example C49_example : exists i,
  get_info 3 (Some (info_seed ex_hash (repeat 8%N 20) 54 3 [ex_info_bytes])) (repeat 1%N 20) ex_hash (s2b "10.0.0.1:6881") = Ret (Ok i) /\
  i_length i = Some 5%N /\ i_name i = s2b "x" /\ i_piece_length i = 3%N /\ i_pieces i = s2b "abcd".
Proof. eexists. split; [vm_compute; reflexivity|]. auto. Qed.

(** C50: whatever info hash was asked for, metadata of another torrent is accepted, ... *)
Theorem C50_metadata_unverified_refuted : forall (sha1 : bytes -> bytes) ih pid ep, List.length ih = 20%nat -> ModelTracker.parse_socket_addr ep <> None ->
  ih <> sha1 ex_info_bytes -> exists s fuel i, get_info fuel (Some s) pid ih ep = Ret (Ok i) /\ compute_info_hash sha1 i <> ih.
Proof.
  intros sha1 ih pid ep L EP NE.
  destruct (info_from_bytes ex_info_bytes) as [[i|]| |] eqn:E; try (vm_compute in E; discriminate).
  exists (info_seed ih (repeat 8%N 20) 54 3 [ex_info_bytes]), 3%nat, i. split.
  - apply c49_seed; [lia|lia|exact EP|exact L|reflexivity|repeat constructor; vm_compute; discriminate|reflexivity| |cbn; lia].
    cbn [List.concat]. rewrite app_nil_r. exact E.
  - vm_compute in E. injection E as <-. intros H. apply NE. rewrite <- H. vm_compute. reflexivity.
Qed.
Print Assumptions C50_metadata_unverified_refuted.

(** ... and then no peer of the torrent that was asked for is of any use. *)
Theorem C50_other_torrent : forall sha1 p fuel s pid ep i idx h, ModelTracker.parse_socket_addr ep <> None -> delivers s [Some (19%N, h)] ->
  List.length h = 68%nat -> firstn 20 (skipn 28 h) <> compute_info_hash sha1 i ->
  download sha1 p fuel (Some s) pid ep i idx = Ret (Err MEHandshake).
Proof. exact c50_download. Qed.
Print Assumptions C50_other_torrent.

Example C50_example :
  download ex_sha1 Debug 50 (Some (seed ex_hash (repeat 8%N 20) 1 [[4; 5]%N])) (repeat 1%N 20) (s2b "10.0.0.1:6881") ex_meta 1 = Ret (Err MEHandshake).
Proof. vm_compute. reflexivity. Qed.
