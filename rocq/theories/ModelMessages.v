(** ModelMessages: src/messages/*.rs *)
From Verif Require Import Base Utf8 ModelBencode.

(** ** bitfield.rs *)

(** bitfield.rs 1-4: struct BitfieldMessage. *)
Record bitfield_msg := { bf_bitfield : bytes }.
(** bitfield.rs 7-11 *)
Definition bitfield_from_bytes (b : bytes) : bitfield_msg := {| bf_bitfield := b |}.
(** bitfield.rs 13-15 *)
Definition get_bitfield (m : bitfield_msg) : bytes := bf_bitfield m.
(** bitfield.rs 33-35 *)
Definition bitfield_as_bytes (m : bitfield_msg) : bytes := bf_bitfield m.
(** bitfield.rs 21-28: the inner loop over one byte; [offset] runs over 0..8. *)
Definition byte_bits (b : N) : list bool :=
  map (fun offset => (0 <? N.land (N.shiftr 128 offset) b)%N) [0; 1; 2; 3; 4; 5; 6; 7]%N.
(** bitfield.rs 17-31: get_bitfield_as_bit_vector. *)
Definition get_bitfield_as_bit_vector (m : bitfield_msg) : list bool :=
  fold_left (fun acc b => acc ++ byte_bits b) (bf_bitfield m) [].

(** ** request.rs *)

(** request.rs 1-6: struct RequestMessage (also used for received piece messages). *)
Record request_msg := { rq_piece_index : N; rq_block_index : N; rq_block_data : bytes }.
(** request.rs 8-15 *)
Definition request_new (piece_index block_index : N) (data : bytes) : request_msg :=
  {| rq_piece_index := piece_index; rq_block_index := block_index; rq_block_data := data |}.
(** request.rs 17-28: from_bytes; the slices panic on short bodies. *)
Definition request_from_bytes (b : bytes) : outcome request_msg :=
  pi <- slice b 0 4 ;;
  bi <- slice b 4 8 ;;
  data <- slice_from b 8 ;;
  Ret {| rq_piece_index := from_be pi; rq_block_index := from_be bi; rq_block_data := data |}.
(** request.rs 30-32 *)
Definition get_block_data (m : request_msg) : bytes := rq_block_data m.
(** request.rs 34-41 *)
Definition request_as_bytes (m : request_msg) : bytes :=
  be32 (rq_piece_index m) ++ be32 (rq_block_index m) ++ rq_block_data m.

(** ** handshake.rs *)

(** handshake.rs 1-8: struct HandshakeMessage. *)
Record handshake_msg := {
  hs_protocol_identifier_length : N;
  hs_protocol_identifier : bytes;
  hs_reserved_bytes : bytes;
  hs_info_hash : bytes;
  hs_peer_id : bytes
}.
(** handshake.rs 11-19 *)
Definition handshake_new (info_hash peer_id : bytes) : handshake_msg :=
  {| hs_protocol_identifier_length := 19%N;
     hs_protocol_identifier := s2b "BitTorrent protocol";
     hs_reserved_bytes := [0; 0; 0; 0; 0; 16; 0; 0]%N;
     hs_info_hash := info_hash;
     hs_peer_id := peer_id |}.
(** handshake.rs 21-29: from_bytes; the slices panic on short bodies. *)
Definition handshake_from_bytes (b : bytes) : outcome handshake_msg :=
  l <- index b 0 ;;
  ident <- slice b 1 20 ;;
  reserved <- slice b 20 28 ;;
  ih <- slice b 28 48 ;;
  pid <- slice b 48 68 ;;
  Ret {| hs_protocol_identifier_length := l; hs_protocol_identifier := ident;
         hs_reserved_bytes := reserved; hs_info_hash := ih; hs_peer_id := pid |}.
(** handshake.rs 31-33 *)
Definition hs_get_info_hash (m : handshake_msg) : bytes := hs_info_hash m.
(** handshake.rs 35-44 *)
Definition handshake_as_bytes (m : handshake_msg) : bytes :=
  [hs_protocol_identifier_length m] ++ hs_protocol_identifier m ++ hs_reserved_bytes m
  ++ hs_info_hash m ++ hs_peer_id m.

(** ** extension.rs *)

(** extension.rs 9-17: struct ExtensionMessage. *)
Record extension_msg := {
  ex_id : N;
  ex_msg_type : option N;
  ex_metadata_size : option N;
  ex_extensions : hmap N;
  ex_piece : option N;
  ex_data : bytes
}.

(** extension.rs 97-107: build_extensions_map; [m] lists the entries in iteration order. *)
Definition build_extensions_map (m : list (bytes * metainfo)) : hmap N :=
  fold_left (fun acc kv =>
    match get_integer_content (snd kv) with
    | Ok v => hm_insert acc (fst kv) (as_u8 v)
    | Err _ => acc
    end) m [].

(** extension.rs 32-60: from_bytes. [Err tt] stands for "Error during decoding". *)
Definition extension_from_bytes (b : bytes) : outcome (result extension_msg unit) :=
  rest <- slice_from b 1 ;;
  r <- decode rest ;;
  match r with
  | Err _ => Ret (Err tt)
  | Ok (content, parsed) =>
    let extensions :=
      match res_ok (get_value_from_dict content (s2b "m")) with
      | None => []
      | Some e =>
        build_extensions_map (match get_dict_content e with Ok d => d | Err _ => [] end)
      end in
    id <- index b 0 ;;
    data <- slice_from b (parsed + 1) ;;
    Ret (Ok {| ex_id := id;
               ex_data := data;
               ex_msg_type := res_ok (get_integer_from_dict content (s2b "msg_type"));
               ex_metadata_size := res_ok (get_integer_from_dict content (s2b "metadata_size"));
               ex_piece := res_ok (get_integer_from_dict content (s2b "piece"));
               ex_extensions := extensions |})
  end.

(** extension.rs 62-64, 66-68, 70-72 *)
Definition ex_get_metadata_size (m : extension_msg) : option N := ex_metadata_size m.
Definition ex_get_data (m : extension_msg) : bytes := ex_data m.
Definition ex_get_extensions (m : extension_msg) : hmap N := ex_extensions m.
(** extension.rs 74-76 *)
Definition ex_is_handshake (m : extension_msg) : bool :=
  match ex_metadata_size m with Some _ => true | None => false end.
(** extension.rs 78-80 *)
Definition ex_is_data (m : extension_msg) : bool :=
  match ex_msg_type m with Some n => (n =? 1)%N | None => false end.
(** extension.rs 82-94: as_bytes. The map has at most two entries; its iteration order is
    irrelevant because enc_map sorts (property C08). *)
Definition extension_as_bytes (m : extension_msg) : bytes :=
  let body0 : hmap N := [] in
  let body1 := match ex_piece m with
               | Some p => hm_insert body0 (s2b "piece") p
               | None => body0 end in
  let body2 := match ex_msg_type m with
               | Some t => hm_insert body1 (s2b "msg_type") t
               | None => body1 end in
  [ex_id m] ++ enc_map enc_usize body2.

(** ** mod.rs *)

(** mod.rs 16-24: enum ContentType (InterestedMessage, interested.rs 1-12, is an empty struct). *)
Inductive content_type :=
| CRequest (m : request_msg)
| CExtension (m : extension_msg)
| CInterested
| CBitfield (m : bitfield_msg)
| CHandshake (m : handshake_msg)
| CNothing.

(** mod.rs 26-31: struct Message. *)
Record message := { msg_id : N; msg_length : N; msg_content : content_type }.

(** mod.rs 36-51: Message::new_raw. [Err tt] is the error string of the extension parser. *)
Definition new_raw (body : bytes) (length id : N) : outcome (result message unit) :=
  let mk c := Ret (Ok {| msg_id := id; msg_length := length; msg_content := c |}) in
  if (id =? 2)%N then mk CInterested
  else if (id =? 5)%N then mk (CBitfield (bitfield_from_bytes body))
  else if (id =? 7)%N || (id =? 6)%N then
    m <- request_from_bytes body ;; mk (CRequest m)
  else if (id =? 20)%N then
    m <-? extension_from_bytes body ;; mk (CExtension m)
  else if (id =? 19)%N then
    m <- handshake_from_bytes body ;; mk (CHandshake m)
  else mk CNothing.

(** mod.rs 53-59 *)
Definition message_new (c : content_type) (length id : N) : message :=
  {| msg_id := id; msg_length := length; msg_content := c |}.

(** mod.rs 69-78 *)
Definition get_content_data (m : message) : bytes :=
  match msg_content m with
  | CNothing => []
  | CExtension e => ex_get_data e
  | CRequest r => get_block_data r
  | CInterested => []
  | CBitfield b => get_bitfield b
  | CHandshake _ => []
  end.

(** mod.rs 80-96 *)
Definition message_as_bytes (m : message) : bytes :=
  let framed content := be32 (msg_length m) ++ [msg_id m] ++ content in
  match msg_content m with
  | CNothing => framed []
  | CExtension e => framed (extension_as_bytes e)
  | CRequest r => framed (request_as_bytes r)
  | CInterested => framed []
  | CBitfield b => framed (bitfield_as_bytes b)
  | CHandshake h => handshake_as_bytes h
  end.

(** mod.rs 98-105 *)
Definition is_extension_data_message (m : message) : bool :=
  match msg_content m with
  | CExtension e => ex_is_data e
  | _ => false
  end.

(** mod.rs 107-109 *)
Definition is_request_message (m : message) : bool :=
  match msg_content m with
  | CRequest _ => true
  | _ => false
  end.

(** mod.rs 117-119 *)
Definition new_interested : message := message_new CNothing 1 2.

(** mod.rs 143-150 *)
Definition new_request (piece_index block_offset block_length : N) : message :=
  message_new (CRequest (request_new piece_index block_offset (be32 block_length))) 13 6.

(** mod.rs 152-161: new_metadata; the [unwrap] panics on a parse error. *)
Definition new_metadata (extension_id index : N) : outcome message :=
  let data := s2b "d8:msg_typei0e5:piecei" ++ dec index ++ s2b "ee" in
  let length := as_u32 (lenN data + 1 + 1) in
  r <- extension_from_bytes ([extension_id] ++ data) ;;
  match r with
  | Ok e => Ret (message_new (CExtension e) length 20)
  | Err _ => Panic
  end.

(** mod.rs 163-166 *)
Definition new_handshake (info_hash peer_id : bytes) : message :=
  message_new (CHandshake (handshake_new info_hash peer_id)) 68 19.
