(** RepoTests: the unit tests of the repository, each stated of the model. They settle single cases and prove no property; they
    are here because the authors of the code recorded with them what the code does, and the model should say the same. All 93 are here but
    six in src/common/mock_stream.rs (191-198, 210-261, 271-279), which concern test equipment only; tcp_tracker.rs 62-79 is taken with an HTTP client that gives the body of
    the mock server. *)
From Verif Require Import Base Utf8 ModelBencode ModelMessages ModelTorrent ModelTracker ModelStream ModelPeer ModelWriter.

(** ** src/bencode/decode.rs 147-227 *)
Definition decoded (s : bytes) : option metainfo :=
  match decode s with Ret (Ok (m, _)) => Some m | _ => None end.
Example decode_simple_string : decoded (s2b "3:bau") = Some (MString (s2b "bau")).
Proof. vm_compute. reflexivity. Qed.
Example decode_simple_integer : decoded (s2b "i38e") = Some (MInteger 38).
Proof. vm_compute. reflexivity. Qed.
Example decode_simple_list : decoded (s2b "l4:miaoi38ee") = Some (MList [MString (s2b "miao"); MInteger 38]).
Proof. vm_compute. reflexivity. Qed.
Example decode_simple_dictionary : decoded (s2b "d4:miaoi38ee") = Some (MDictionary [(s2b "miao", MInteger 38)]).
Proof. vm_compute. reflexivity. Qed.
Example decode_complex_content :
  decoded (s2b "d4:miaoi38e4:infod5:peersi18eee")
  = Some (MDictionary [(s2b "miao", MInteger 38); (s2b "info", MDictionary [(s2b "peers", MInteger 18)])]).
Proof. vm_compute. reflexivity. Qed.
Example decode_double_content :
  let s := s2b "d3:fooi32eed3:bar3:booe" in
  exists cur e, decode s = Ret (Ok (MDictionary [(s2b "foo", MInteger 32)], cur))
           /\ decode_at s cur = Ret (Ok (MDictionary [(s2b "bar", MString (s2b "boo"))], e)).
Proof. exists 11, 23. split; vm_compute; reflexivity. Qed.

(** ** src/bencode/encode.rs 86-202 *)
Example encode_string : enc_string (s2b "Bau Bau") = s2b "7:Bau Bau".
Proof. vm_compute. reflexivity. Qed.
Example encode_integer : enc_usize 549432982 = s2b "i549432982e".
Proof. vm_compute. reflexivity. Qed.
Example encode_byte_vector : enc_bytes [142; 153; 34]%N = [51; 58; 142; 153; 34]%N.
Proof. vm_compute. reflexivity. Qed.
Example encode_generic_vector : enc_list enc_string [s2b "Miao"; s2b "Cra"] = s2b "l4:Miao3:Crae".
Proof. vm_compute. reflexivity. Qed.
Example encode_string_dict_entry : encode_dict_entry (s2b "key") (enc_string (s2b "value")) = s2b "3:key5:value".
Proof. vm_compute. reflexivity. Qed.
Example encode_integer_dict_entry : encode_dict_entry (s2b "key") (enc_usize 123) = s2b "3:keyi123e".
Proof. vm_compute. reflexivity. Qed.
Example encode_list_dict_entry : encode_dict_entry (s2b "key") (enc_list enc_string [s2b "S"]) = s2b "3:keyl1:Se".
Proof. vm_compute. reflexivity. Qed.
Example encode_option_string_dict_entry :
  encode_dict_entry (s2b "key") (enc_option enc_string (Some (s2b "value"))) = s2b "3:key5:value".
Proof. vm_compute. reflexivity. Qed.
Example encode_option_none_dict_entry : encode_dict_entry (s2b "key") (enc_option enc_usize None) = [].
Proof. vm_compute. reflexivity. Qed.
Example encode_hashmap :
  enc_map enc_string [(s2b "Zanzibar", s2b "Valvola"); (s2b "Chiave", s2b "Valore"); (s2b "Paolo", s2b "Akunamatata")]
  = s2b "d6:Chiave6:Valore5:Paolo11:Akunamatata8:Zanzibar7:Valvolae".
Proof. vm_compute. reflexivity. Qed.
Example encode_option_string : enc_option enc_string (Some (s2b "Ciao")) = s2b "4:Ciao".
Proof. vm_compute. reflexivity. Qed.
Example encode_option_integer : enc_option enc_usize (Some 12%N) = s2b "i12e".
Proof. vm_compute. reflexivity. Qed.
Example encode_option_none : enc_option enc_string None = [].
Proof. vm_compute. reflexivity. Qed.

(** ** src/bencode/metainfo.rs 133-223 *)
Example get_bytes_content_test : get_bytes_content (MString (s2b "C")) = Ok (s2b "C").
Proof. vm_compute. reflexivity. Qed.
Example get_string_content_test : get_string_content (MString (s2b "Ciao")) = Ok (s2b "Ciao").
Proof. vm_compute. reflexivity. Qed.
Example get_integer_content_test : get_integer_content (MInteger 1234) = Ok 1234%N.
Proof. vm_compute. reflexivity. Qed.
Example get_list_content_test :
  get_list_content (MList [MInteger 12; MString (s2b "ciao")]) = Ok [MInteger 12; MString (s2b "ciao")].
Proof. vm_compute. reflexivity. Qed.
Example get_bytes_from_dict_test :
  get_bytes_from_dict (MDictionary [(s2b "key", MString (s2b "value"))]) (s2b "key") = Ok (s2b "value").
Proof. vm_compute. reflexivity. Qed.
Example get_string_from_dict_test :
  get_string_from_dict (MDictionary [(s2b "key", MString (s2b "value"))]) (s2b "key") = Ok (s2b "value").
Proof. vm_compute. reflexivity. Qed.
Example get_list_from_dict_test :
  get_list_from_dict (MDictionary [(s2b "key", MList [MInteger 123])]) (s2b "key") = Ok [MInteger 123].
Proof. vm_compute. reflexivity. Qed.
Example get_integer_from_dict_test :
  get_integer_from_dict (MDictionary [(s2b "key", MInteger 123)]) (s2b "key") = Ok 123%N.
Proof. vm_compute. reflexivity. Qed.
Example get_value_from_dict_test :
  get_value_from_dict (MDictionary [(s2b "key", MInteger 123)]) (s2b "key") = Ok (MInteger 123).
Proof. vm_compute. reflexivity. Qed.

(** ** src/messages/bitfield.rs 42-81 *)
Example bitfield_test_from_bytes : get_bitfield (bitfield_from_bytes [0; 1; 2]%N) = [0; 1; 2]%N.
Proof. vm_compute. reflexivity. Qed.
Example bitfield_test_from_bytes_empty : get_bitfield (bitfield_from_bytes []) = [].
Proof. vm_compute. reflexivity. Qed.
Example bitfield_test_as_bytes : bitfield_as_bytes {| bf_bitfield := [28; 170; 221; 13]%N |} = [28; 170; 221; 13]%N.
Proof. vm_compute. reflexivity. Qed.
Example bitfield_test_as_bit_vector :
  get_bitfield_as_bit_vector {| bf_bitfield := [28; 255; 170]%N |}
  = [false; false; false; true; true; true; false; false; true; true; true; true; true; true; true; true;
     true; false; true; false; true; false; true; false].
Proof. vm_compute. reflexivity. Qed.

(** ** src/messages/extension.rs 113-161 *)
Example extension_test_as_bytes :
  extension_as_bytes {| ex_id := 1; ex_msg_type := Some 1%N; ex_metadata_size := None; ex_extensions := [];
                        ex_piece := Some 2%N; ex_data := [] |}
  = [1%N] ++ s2b "d8:msg_typei1e5:piecei2ee".
Proof. vm_compute. reflexivity. Qed.
Example extension_test_from_bytes_handshake :
  exists m, extension_from_bytes ([20%N] ++ s2b "d13:metadata_sizei1024e1:md3:fooi2eee") = Ret (Ok m)
       /\ ex_get_metadata_size m = Some 1024%N /\ ex_get_extensions m = [(s2b "foo", 2%N)]
       /\ ex_get_data m = [] /\ ex_msg_type m = None.
Proof. eexists. split; [vm_compute; reflexivity|]. repeat split. Qed.
Example extension_test_from_bytes_data :
  exists m, extension_from_bytes ([20%N] ++ s2b "d8:msg_typei1e5:piecei2ee" ++ [17; 34]%N) = Ret (Ok m)
       /\ ex_get_metadata_size m = None /\ ex_get_extensions m = [] /\ ex_get_data m = [17; 34]%N
       /\ ex_msg_type m = Some 1%N /\ ex_piece m = Some 2%N.
Proof. eexists. split; [vm_compute; reflexivity|]. repeat split. Qed.

(** ** src/messages/handshake.rs 51-61, interested.rs 18-23 (an interested message has no body) *)
Example test_handshake_message :
  handshake_as_bytes (handshake_new [0; 1]%N (s2b "peer"))
  = [19; 66; 105; 116; 84; 111; 114; 114; 101; 110; 116; 32; 112; 114; 111; 116; 111; 99; 111; 108; 0; 0; 0; 0; 0; 16; 0; 0;
     0; 1; 112; 101; 101; 114]%N.
Proof. vm_compute. reflexivity. Qed.
Example interested_test_as_bytes : message_as_bytes (message_new CInterested 1 2) = be32 1 ++ [2%N] ++ [].
Proof. vm_compute. reflexivity. Qed.

(** ** src/messages/mod.rs 172-205 *)
Example test_new_interested : message_as_bytes new_interested = be32 1 ++ [2%N].
Proof. vm_compute. reflexivity. Qed.
Example test_new_request : message_as_bytes (new_request 10 2 4) = be32 13 ++ [6%N] ++ be32 10 ++ be32 2 ++ be32 4.
Proof. vm_compute. reflexivity. Qed.
Example test_new_metadata :
  exists m, new_metadata 10 2 = Ret m
       /\ message_as_bytes m = [0; 0; 0; 27; 20; 10]%N ++ s2b "d8:msg_typei0e5:piecei2ee".
Proof. eexists. split; vm_compute; reflexivity. Qed.

(** ** src/messages/request.rs 48-92 *)
Example test_from_bytes_send_request :
  exists m, request_from_bytes (be32 1 ++ be32 2 ++ be32 3) = Ret m
       /\ get_block_data m = be32 3 /\ rq_block_index m = 2%N /\ rq_piece_index m = 1%N.
Proof. eexists. split; [vm_compute; reflexivity|]. repeat split. Qed.
Example test_from_bytes_recieve_request :
  exists m, request_from_bytes (be32 9 ++ be32 10 ++ [0; 50; 1; 12]%N) = Ret m
       /\ rq_block_data m = [0; 50; 1; 12]%N /\ rq_block_index m = 10%N /\ rq_piece_index m = 9%N.
Proof. eexists. split; [vm_compute; reflexivity|]. repeat split. Qed.
Example request_test_as_bytes :
  request_as_bytes {| rq_piece_index := 1; rq_block_index := 2; rq_block_data := [0; 0; 0; 13]%N |}
  = [0; 0; 0; 1; 0; 0; 0; 2; 0; 0; 0; 13]%N.
Proof. vm_compute. reflexivity. Qed.

(** ** src/torrent/file.rs 64-102 *)
Example create_new_file : file_new [s2b "path"] 12 = {| f_path := [s2b "path"]; f_length := 12 |}.
Proof. reflexivity. Qed.
Example encode_file :
  enc_file (file_new [s2b "/bin"; s2b "/var"; s2b "/dump.txt"] 234) = s2b "d6:lengthi234e4:pathl4:/bin4:/var9:/dump.txtee".
Proof. vm_compute. reflexivity. Qed.
Example encode_file_with_empty_path : enc_file (file_new [] 12) = s2b "d6:lengthi12e4:pathlee".
Proof. vm_compute. reflexivity. Qed.

(** ** src/torrent/info.rs 156-188 *)
Example encode_info_with_files :
  enc_info {| i_name := s2b "pippo"; i_piece_length := 43921; i_pieces := s2b "ABCDE";
              i_files := Some [file_new [s2b "/bin"] 234]; i_length := None |}
  = s2b "d5:filesld6:lengthi234e4:pathl4:/bineee4:name5:pippo12:piece lengthi43921e6:pieces5:ABCDEe".
Proof. vm_compute. reflexivity. Qed.
Example encode_info_without_files :
  enc_info {| i_name := s2b "pippo"; i_piece_length := 43921; i_pieces := s2b "ABCDE"; i_files := None; i_length := Some 476%N |}
  = s2b "d6:lengthi476e4:name5:pippo12:piece lengthi43921e6:pieces5:ABCDEe".
Proof. vm_compute. reflexivity. Qed.

(** ** src/torrent/magnet.rs 74-116. [base32] is RFC 4648 without padding, for 20 bytes. *)
Definition base32 (b : bytes) : bytes :=
  map (fun k => nth (N.to_nat (N.shiftr (from_be b) (155 - 5 * N.of_nat k) mod 32)) (s2b "ABCDEFGHIJKLMNOPQRSTUVWXYZ234567") 0%N)
    (seq 0 32).
Example parse_magnet_hex_encoded_test (p : profile) :
  parse_magnet p (s2b "magnet:?xt=urn:btih:A6e449c2281e62edbf8cdb447413ca288cf0e568&dn=Top.Gun.Maverick.2022.KORSUB.IMAX.1080p.WEBRip.AAC2.0.x264-SHITBOX&tr=http%3A%2F%2Ftracker.trackerfix.com%3A80%2Fannounce&tr=udp%3A%2F%2F9.rarbg.me%3A2730&tr=udp%3A%2F%2F9.rarbg.to%3A2800&tr=udp%3A%2F%2Ftracker.tallpenguin.org%3A15780&tr=udp%3A%2F%2Ftracker.thinelephant.org%3A12720")
  = Ret (Ok [166; 228; 73; 194; 40; 30; 98; 237; 191; 140; 219; 68; 116; 19; 202; 40; 140; 240; 229; 104]%N).
Proof. destruct p; vm_compute; reflexivity. Qed.
Example parse_magnet_base32_encoded_test (p : profile) :
  parse_magnet p (s2b "magnet:?xt=urn:btih:G27L4RSWJP5UK2XU6U35LCRHEEV57INR&dn=See.S03E01.WEBRip.x264-ION10&tr=http%3A%2F%2Ftracker.trackerfix.com%3A80%2Fannounce")
  = Ret (Ok (base32 [54; 190; 190; 70; 86; 75; 251; 69; 106; 244; 245; 55; 213; 138; 39; 33; 43; 223; 161; 177]%N)).
Proof. destruct p; vm_compute; reflexivity. Qed.
Example parse_magnet_error_test (p : profile) :
  parse_magnet p (s2b "magneto:?00000000000000000000000000000000000000000000000000000000") = Ret (Err tt).
Proof. destruct p; vm_compute; reflexivity. Qed.

(** ** src/torrent/writer.rs 163-286 *)
Definition fwr (path : bytes) (a b : N) (data : bytes) : file_writer :=
  {| fw_path := [path]; fw_start := a; fw_end := b; fw_piece := data |}.
Definition zeros (n : nat) : bytes := repeat 0%N n.
Definition no_files : fs := fun l => match l with [] => Some NDir | _ => None end.
Example proviamoci :
  exists d1 d2, write_to_filesystem [] no_files (fwr (s2b "prova.txt") 6 12 [1; 1; 1; 1; 1; 1]%N) = Ret d1
           /\ write_to_filesystem [] d1 (fwr (s2b "prova.txt") 0 6 [0; 0; 0; 0; 0; 0]%N) = Ret d2
           /\ d2 [s2b "prova.txt"] = Some (NFile [0; 0; 0; 0; 0; 0; 1; 1; 1; 1; 1; 1]%N).
Proof. eexists _, _. split; [reflexivity|]. split; [reflexivity|]. vm_compute. reflexivity. Qed.
Example test_single_file_single_writer (p : profile) :
  get_file_writers p [file_new [s2b "path"] 32] (zeros 8) 2 8 = Ret [fwr (s2b "path") 16 24 (zeros 8)].
Proof. destruct p; vm_compute; reflexivity. Qed.
Example test_multiple_file_single_writer (p : profile) :
  get_file_writers p [file_new [s2b "path"] 32; file_new [s2b "path"] 32] (zeros 8) 1 8
  = Ret [fwr (s2b "path") 8 16 (zeros 8)].
Proof. destruct p; vm_compute; reflexivity. Qed.
Example test_multiple_file_multiple_writer (p : profile) :
  get_file_writers p [file_new [s2b "path"] 33; file_new [s2b "to"] 2; file_new [s2b "heaven"] 30] (zeros 8) 4 8
  = Ret [fwr (s2b "path") 32 33 (zeros 1); fwr (s2b "to") 0 2 (zeros 2); fwr (s2b "heaven") 0 5 (zeros 5)].
Proof. destruct p; vm_compute; reflexivity. Qed.
Example test_multiple_file_multiple_writer_edge_case (p : profile) :
  get_file_writers p [file_new [s2b "path"] 32; file_new [s2b "to"] 2; file_new [s2b "heaven"] 30] (zeros 8) 4 8
  = Ret [fwr (s2b "to") 0 2 (zeros 2); fwr (s2b "heaven") 0 6 (zeros 6)].
Proof. destruct p; vm_compute; reflexivity. Qed.
Example test_piece_smaller_than_piece_length (p : profile) :
  get_file_writers p [file_new [s2b "path"] 12] (zeros 4) 1 8 = Ret [fwr (s2b "path") 8 12 (zeros 4)].
Proof. destruct p; vm_compute; reflexivity. Qed.
Example test_piece_too_small_ok (p : profile) :
  get_file_writers p [file_new [s2b "path"] 32] (zeros 2) 0 2 = Ret [fwr (s2b "path") 0 2 (zeros 2)].
Proof. destruct p; vm_compute; reflexivity. Qed.
Example test_big_file (p : profile) :
  get_file_writers p [file_new [s2b "path"] 1800; file_new [s2b "to"] 1500; file_new [s2b "heaven"] 6000] (zeros 1700) 1 1700
  = Ret [fwr (s2b "path") 1700 1800 (zeros 100); fwr (s2b "to") 0 1500 (zeros 1500); fwr (s2b "heaven") 0 100 (zeros 100)].
Proof. destruct p; vm_compute; reflexivity. Qed.

(** ** src/tracker/peer_endpoint.rs 47-59, tcp_tracker.rs 62-79 *)
Example test_peers_endpoint_from_bytes :
  endpoints_from_bytes (s2b "340111") = Ret [{| pe_ip := s2b "51.52.48.49"; pe_port := 12593 |}].
Proof. vm_compute. reflexivity. Qed.
Example test_call :
  tcp_call (fun _ => HttpBody (s2b "d5:peers3:baue")) [0%N] (s2b "peer_id")
    {| u_scheme := s2b "http"; u_host := Some (s2b "127.0.0.1"); u_port := Some 5000%N;
       u_text := s2b "http://127.0.0.1:5000/announce" |}
  = Ret (Ok [98; 97; 117]%N).
Proof. vm_compute. reflexivity. Qed.

(** ** src/common/mock_stream.rs 182-208 and 263-269: a mocked stream as a socket of the model *)
Definition mocked (b : bytes) : stream :=
  {| st_avail := b; st_closed := true; st_sched := []; st_wsched := []; st_sent := [] |}.
Example test_mock_stream_read :
  exists got, fst (read 6 (mocked (s2b "abcd"))) = Some got /\ List.length got = 4
         /\ overlay (repeat 11%N 6) got = [97; 98; 99; 100; 11; 11]%N.
Proof. eexists. split; [vm_compute; reflexivity|]. split; reflexivity. Qed.
Example test_mock_stream_empty_and_fill :
  let s := snd (read 6 (mocked [])) in
  let s1 := set_avail s (s2b "abcd") in
  fst (read 6 (mocked [])) = Some [] /\ fst (read 6 s1) = Some (s2b "abcd") /\ fst (read 6 (snd (read 6 s1))) = Some [].
Proof. vm_compute. repeat split. Qed.
Example test_mock_stream_write : write_all (mocked []) (s2b "abcd")
  = (true, {| st_avail := []; st_closed := true; st_sched := []; st_wsched := []; st_sent := [97; 98; 99; 100]%N |}).
Proof. vm_compute. reflexivity. Qed.

(** ** src/peer/stream.rs 173-275 *)
Example test_has_messages : fst (has_messages (mocked [1%N])) = true.
Proof. vm_compute. reflexivity. Qed.
Example test_has_no_messages : fst (has_messages (mocked [])) = false.
Proof. vm_compute. reflexivity. Qed.
Example test_peek_and_read : fst (peek_and_read 1 (mocked [1%N])) = Some [1%N].
Proof. vm_compute. reflexivity. Qed.
Example test_peek_and_read_empty : fst (peek_and_read 0 (mocked [])) = Some [].
Proof. vm_compute. reflexivity. Qed.
Example test_peek_and_read_less_than_available : fst (peek_and_read 3 (mocked [1; 2; 3; 4; 5; 6]%N)) = Some [1; 2; 3]%N.
Proof. vm_compute. reflexivity. Qed.
Example test_read_stream_no_body : fst (read_stream (mocked [0; 0; 0; 1; 5]%N)) = Some ([], 5%N, 0%N).
Proof. vm_compute. reflexivity. Qed.
Example test_read_stream_with_body :
  fst (read_stream (mocked [0; 0; 0; 6; 9; 1; 2; 3; 4; 5]%N)) = Some ([1; 2; 3; 4; 5]%N, 9%N, 5%N).
Proof. vm_compute. reflexivity. Qed.
Example test_read_stream_empty : fst (read_stream (mocked [])) = None.
Proof. vm_compute. reflexivity. Qed.
Example test_read_stream_handshake :
  fst (read_stream (mocked (19%N :: zeros 67))) = Some (19%N :: zeros 67, 19%N, 68%N).
Proof. vm_compute. reflexivity. Qed.

(** ** src/peer/piece_pool.rs 50-71 *)
Example test_next :
  fst (pool_pop (pool_new 1)) = Some 0%N /\ fst (pool_pop (snd (pool_pop (pool_new 1)))) = None.
Proof. vm_compute. split; reflexivity. Qed.
Example test_empty : pool_new 0 = [].
Proof. vm_compute. reflexivity. Qed.
Example test_insert : pool_insert (pool_new 0) 0 <> [].
Proof. vm_compute. discriminate. Qed.

(** ** src/peer/mod.rs 163-198 *)
Definition nobody : peer := peer_new [] (mocked []) [].
Example test_apply_choke_messages :
  is_choked (apply_message nobody (message_new CNothing 5 0)) = true
  /\ is_choked (apply_message (apply_message nobody (message_new CNothing 5 0)) (message_new CNothing 5 1)) = false.
Proof. vm_compute. split; reflexivity. Qed.
Example test_apply_bitfield_message :
  p_bitfield (apply_message nobody (message_new (CBitfield (bitfield_from_bytes [16%N])) 1 5))
  = [false; false; false; true; false; false; false; false].
Proof. vm_compute. reflexivity. Qed.
Example test_apply_extension_message :
  let x := apply_message nobody
             (message_new (CExtension {| ex_id := 20; ex_msg_type := None; ex_metadata_size := Some 123%N;
                                         ex_extensions := [(s2b "ut_metadata", 2%N)]; ex_piece := None; ex_data := [] |}) 10 20) in
  get_extension_id_by_name x (s2b "ut_metadata") = Ret 2%N /\ get_metadata_size x = 123%N.
Proof. vm_compute. split; reflexivity. Qed.

(** ** src/peer/buffer.rs 67-133 *)
Definition raw_of (body : bytes) (length id : N) : message :=
  match new_raw body length id with Ret (Ok m) => m | _ => message_new CNothing 0 0 end.
Example test_push_message_not_filterd :
  let b := push_message (fun _ => true) (buffer_new 10) (raw_of [] 1 1) in lenN (mb_buffer b) = 1%N /\ is_full b = false.
Proof. vm_compute. split; reflexivity. Qed.
Example test_push_message_filterd :
  let b := push_message (fun _ => false) (buffer_new 10) (raw_of [] 1 1) in lenN (mb_buffer b) = 0%N /\ is_full b = false.
Proof. vm_compute. split; reflexivity. Qed.
Example test_push_message_discarded_when_full :
  let b := push_message (fun _ => true) (buffer_new 0) (raw_of [] 1 1) in lenN (mb_buffer b) = 0%N /\ is_full b = true.
Proof. vm_compute. split; reflexivity. Qed.
Example test_push_message_mix :
  let push := push_message (fun m => (msg_id m mod 2 =? 1)%N) in
  let b := push (push (push (push (buffer_new 2) (raw_of [] 1 1)) (raw_of [] 1 2)) (raw_of [] 1 3)) (raw_of [] 1 5) in
  lenN (mb_buffer b) = 2%N /\ is_full b = true.
Proof. vm_compute. split; reflexivity. Qed.
Example test_assemble_content :
  let push := push_message (fun _ => true) in
  let b := push (push (buffer_new 2) (raw_of [1%N] 2 5)) (raw_of [2; 0]%N 2 5) in
  assemble_content b = [1; 2; 0]%N /\ is_full b = true.
Proof. vm_compute. split; reflexivity. Qed.
Example test_assemble_empty_buffer : assemble_content (buffer_new 2) = [] /\ is_full (buffer_new 2) = false.
Proof. vm_compute. split; reflexivity. Qed.

(** ** src/peer/download/mod.rs 95-138 *)
Example test_download_info :
  let x := peer_new [] (mocked ([0; 0; 0; 1; 1]%N ++ [0; 0; 0; 22; 20; 2]%N ++ s2b "d8:msg_typei1ee" ++ [1; 2; 3; 4; 5]%N)) [] in
  let x1 := with_metadata x [(s2b "ut_metadata", 1%N)] INFO_PIECE_SIZE in
  exists x2, download_info 20 x1 = Ret (Ok [1; 2; 3; 4; 5]%N, x2).
Proof. eexists. vm_compute. reflexivity. Qed.
Example test_download_piece (p : profile) :
  let body := repeat 2%N (N.to_nat 12384) in
  let x := peer_new [] (mocked ([0; 0; 0; 1; 1]%N ++ be32 12393 ++ [6; 0; 0; 0; 0; 0; 0; 0; 0]%N ++ body)) [] in
  match download_block p 20 32768 1 45152 x with
  | Ret (Ok b, _) => bytes_eqb b body
  | _ => false
  end = true.
Proof. destruct p; vm_compute; reflexivity. Qed.
