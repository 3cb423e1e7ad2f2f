(** PropMessages: properties C12-C17 (peer wire messages) *)
From Verif Require Import Base SpecBencode SpecMessages ModelBencode ModelMessages ModelStream ProofMessages.

(** C12: bitfields are read most significant bit first. *)
Theorem C12_bitfield_bits : forall l,
  let v := get_bitfield_as_bit_vector (bitfield_from_bytes l) in
  List.length v = (8 * List.length l)%nat /\
  forall k, nth_error v k = option_map (fun b => N.testbit b (N.of_nat (7 - k mod 8))) (nth_error l (k / 8)).
Proof. exact c12. Qed.
Print Assumptions C12_bitfield_bits.

(** C12: no two bitfields give the same bits. *)
Theorem C12_bitfield_injective : forall l l', bytes_ok l -> bytes_ok l' ->
  get_bitfield_as_bit_vector (bitfield_from_bytes l) = get_bitfield_as_bit_vector (bitfield_from_bytes l') ->
  l = l'.
Proof. exact c12_inj. Qed.
Print Assumptions C12_bitfield_injective.

Example C12_example : get_bitfield_as_bit_vector (bitfield_from_bytes [130; 1]%N)
  = [true; false; false; false; false; false; true; false; false; false; false; false; false; false; false; true].
Proof. reflexivity. Qed.

(** C13: the request message. *)
Theorem C13_request_layout : forall pi off len, (pi < 2 ^ 32)%N -> (off < 2 ^ 32)%N -> (len < 2 ^ 32)%N ->
  message_as_bytes (new_request pi off len)
  = big_endian 4 13 ++ [6%N] ++ big_endian 4 pi ++ big_endian 4 off ++ big_endian 4 len.
Proof. exact c13_request. Qed.
Print Assumptions C13_request_layout.

(** C13: parsing recovers index, offset and payload and serialises back. *)
Theorem C13_piece_parse : forall pi off data, (pi < 2 ^ 32)%N -> (off < 2 ^ 32)%N ->
  exists m, request_from_bytes (big_endian 4 pi ++ big_endian 4 off ++ data) = Ret m /\
    rq_piece_index m = pi /\ rq_block_index m = off /\ get_block_data m = data /\
    request_as_bytes m = big_endian 4 pi ++ big_endian 4 off ++ data.
Proof. exact c13_parse. Qed.
Print Assumptions C13_piece_parse.

(** C13: every body of at least eight bytes has this form. *)
Theorem C13_every_long_body : forall b, bytes_ok b -> (8 <= List.length b)%nat ->
  exists pi off data, (pi < 2 ^ 32)%N /\ (off < 2 ^ 32)%N /\ b = big_endian 4 pi ++ big_endian 4 off ++ data.
Proof. exact c13_split. Qed.
Print Assumptions C13_every_long_body.

(** C13: shorter bodies panic. *)
Theorem C13_short_panics : forall b, (List.length b < 8)%nat -> request_from_bytes b = Panic.
Proof. exact c13_short. Qed.
Print Assumptions C13_short_panics.

Example C13_example : message_as_bytes (new_request 1 16384 300)
  = [0; 0; 0; 13; 6; 0; 0; 0; 1; 0; 0; 64; 0; 0; 0; 1; 44]%N /\
  big_endian 4 16384 = [0; 0; 64; 0]%N /\ big_endian_value [0; 0; 64; 0]%N = 16384%N.
Proof. repeat split; reflexivity. Qed.

(** C14: the outgoing handshake. *)
Theorem C14_handshake_layout : forall h pid, message_as_bytes (new_handshake h pid) = handshake_layout h pid /\
  List.length (message_as_bytes (new_handshake h pid)) = (28 + List.length h + List.length pid)%nat.
Proof. exact c14_new. Qed.
Print Assumptions C14_handshake_layout.

(** C14: parsing. *)
Theorem C14_handshake_parse : forall b, (68 <= List.length b)%nat ->
  exists m, handshake_from_bytes b = Ret m /\ hs_get_info_hash m = firstn 20 (skipn 28 b) /\
    hs_peer_id m = firstn 20 (skipn 48 b) /\ handshake_as_bytes m = firstn 68 b.
Proof. exact c14_parse. Qed.
Print Assumptions C14_handshake_parse.

Theorem C14_short_panics : forall b, (List.length b < 68)%nat -> handshake_from_bytes b = Panic.
Proof. exact c14_short. Qed.
Print Assumptions C14_short_panics.

Example C14_example :
  let h := repeat 7%N 20 in let pid := repeat 65%N 20 in
  List.length (message_as_bytes (new_handshake h pid)) = 68%nat /\
  match handshake_from_bytes (message_as_bytes (new_handshake h pid)) with
  | Ret m => hs_get_info_hash m = h /\ hs_peer_id m = pid
  | _ => False
  end /\
  List.length (message_as_bytes (new_handshake (repeat 7%N 32) pid)) = 80%nat.
Proof. vm_compute. auto. Qed.

(** C15: metadata requests. *)
Theorem C15_metadata_request : forall e i, (i < 2 ^ 64)%N -> exists m, new_metadata e i = Ret m /\
  message_as_bytes m = frame 20 (e :: benc (metadata_request i)).
Proof. exact c15. Qed.
Print Assumptions C15_metadata_request.

Example C15_example : frame 20 (3%N :: benc (metadata_request 12))
  = [0; 0; 0; 28; 20; 3]%N ++ s2b "d8:msg_typei0e5:piecei12ee".
Proof. vm_compute. reflexivity. Qed.

(** C16: everything sent after the handshake is a frame. *)
Theorem C16_sent_messages_are_frames :
  message_as_bytes new_interested = frame 2 [] /\
  (forall pi off len, (pi < 2 ^ 32)%N -> (off < 2 ^ 32)%N -> (len < 2 ^ 32)%N ->
     message_as_bytes (new_request pi off len)
     = frame 6 (big_endian 4 pi ++ big_endian 4 off ++ big_endian 4 len)) /\
  (forall e i, (i < 2 ^ 64)%N -> exists m, new_metadata e i = Ret m /\
     message_as_bytes m = frame 20 (e :: benc (metadata_request i))) /\
  metadata_handshake_bytes = extension_handshake.
Proof. exact (conj c16_interested (conj c16_request (conj c15 c16_extension_handshake))). Qed.
Print Assumptions C16_sent_messages_are_frames.

(** C16: a sequence of frames determines its messages, and whatever follows. *)
Theorem C16_frames_self_delimiting : forall m m' x y, frame_ok m -> frame_ok m' ->
  frame (fst m) (snd m) ++ x = frame (fst m') (snd m') ++ y -> m = m' /\ x = y.
Proof. exact frame_prefix. Qed.
Print Assumptions C16_frames_self_delimiting.

Theorem C16_frame_sequences : forall l l', Forall frame_ok l -> Forall frame_ok l' ->
  List.concat (map (fun m => frame (fst m) (snd m)) l) = List.concat (map (fun m => frame (fst m) (snd m)) l') ->
  l = l'.
Proof. exact c16_sequence. Qed.
Print Assumptions C16_frame_sequences.

Example C16_example : Forall frame_ok [(2%N, []); (6%N, repeat 1%N 12)] /\
  frame 6 (repeat 1%N 12) = [0; 0; 0; 13; 6]%N ++ repeat 1%N 12.
Proof.
  split; [|reflexivity]. constructor; [split; reflexivity|]. constructor; [split; reflexivity|]. constructor.
Qed.

(** C17: which received messages abort, hang or are refused; all others are delivered. *)
Theorem C17_new_raw_outcomes : forall body len id,
  (new_raw body len id = Panic <->
     ((id = 6 \/ id = 7)%N /\ (List.length body < 8)%nat) \/
     (id = 19%N /\ (List.length body < 68)%nat) \/
     (id = 20%N /\ (body = [] \/ decode (tl body) = Panic))) /\
  (new_raw body len id = OutOfFuel <-> id = 20%N /\ body <> [] /\ decode (tl body) = OutOfFuel) /\
  (new_raw body len id = Ret (Err tt) <-> id = 20%N /\ body <> [] /\ exists e, decode (tl body) = Ret (Err e)) /\
  (forall m, new_raw body len id = Ret (Ok m) -> msg_id m = id /\ msg_length m = len).
Proof. exact c17. Qed.
Print Assumptions C17_new_raw_outcomes.

(** C17: what a delivered message contains. *)
Theorem C17_new_raw_content : forall body len id m, new_raw body len id = Ret (Ok m) ->
  (id = 5%N -> exists b, msg_content m = CBitfield b /\ get_bitfield b = body) /\
  ((id = 6 \/ id = 7)%N -> exists r, msg_content m = CRequest r /\ request_from_bytes body = Ret r) /\
  (id = 19%N -> exists h, msg_content m = CHandshake h /\ handshake_from_bytes body = Ret h) /\
  (id = 20%N -> exists e, msg_content m = CExtension e /\ extension_from_bytes body = Ret (Ok e)) /\
  (~ In id [5; 6; 7; 19; 20]%N -> get_content_data m = [] /\ is_request_message m = false /\
     is_extension_data_message m = false /\
     (forall b, msg_content m <> CBitfield b) /\ (forall h, msg_content m <> CHandshake h)).
Proof. exact c17_content. Qed.
Print Assumptions C17_new_raw_content.

Example C17_example :
  new_raw (s2b "abc") 3 7 = Panic /\ new_raw [] 0 20 = Panic /\ new_raw (0%N :: s2b "d1:ai") 6 20 = Panic /\
  new_raw (0%N :: s2b "l-e") 4 20 = OutOfFuel /\ new_raw (0%N :: s2b "ie") 3 20 = Ret (Err tt) /\
  exists m, new_raw (s2b "abc") 3 4 = Ret (Ok m).
Proof. repeat split; try (vm_compute; reflexivity). eexists. reflexivity. Qed.
