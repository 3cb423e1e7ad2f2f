(** PropTracker: properties C19-C23 (trackers) *)
From Verif Require Import Base SpecBencode SpecTorrent SpecMessages SpecTracker
  ModelTracker ModelPeer ProofTracker.

(** C19: compact peer lists. *)
Theorem C19_compact_peers : forall l, bytes_ok l ->
  exists es, endpoints_from_bytes l = Ret es /\ List.length es = (List.length l / 6)%nat /\
  forall k, (k < List.length es)%nat -> exists a b c d p1 p0 e,
    compact_entry l k a b c d p1 p0 /\ Forall byte_ok [a; b; c; d; p1; p0] /\
    nth_error es k = Some e /\ endpoint e = endpoint_text a b c d (256 * p1 + p0).
Proof. exact c19. Qed.
Print Assumptions C19_compact_peers.

Example C19_example :
  match endpoints_from_bytes [192; 168; 0; 10; 26; 225; 1; 2; 3; 4; 0; 80; 9; 9]%N with
  | Ret es => map endpoint es = [s2b "192.168.0.10:6881"; s2b "1.2.3.4:80"]
  | _ => False
  end /\ bytes_ok [192; 168; 0; 10; 26; 225; 1; 2; 3; 4; 0; 80; 9; 9]%N.
Proof. split; [vm_compute; reflexivity|]. repeat constructor. Qed.

(** C20: every reported endpoint parses back, so connecting does not panic on it. *)
Theorem C20_endpoint_parses : forall l es, bytes_ok l -> endpoints_from_bytes l = Ret es ->
  forall k e, nth_error es k = Some e -> exists a b c d p1 p0,
    compact_entry l k a b c d p1 p0 /\
    parse_socket_addr (endpoint e) = Some (a, b, c, d, (256 * p1 + p0)%N) /\
    (forall net, connect net (endpoint e) <> Panic).
Proof. exact c20. Qed.
Print Assumptions C20_endpoint_parses.

(** C20: different peers have different endpoint texts. *)
Theorem C20_endpoint_injective : forall l l' es es' k k' e e' a b c d p1 p0 a' b' c' d' p1' p0',
  bytes_ok l -> bytes_ok l' ->
  endpoints_from_bytes l = Ret es -> endpoints_from_bytes l' = Ret es' ->
  nth_error es k = Some e -> nth_error es' k' = Some e' ->
  compact_entry l k a b c d p1 p0 -> compact_entry l' k' a' b' c' d' p1' p0' ->
  endpoint e = endpoint e' -> [a; b; c; d; p1; p0] = [a'; b'; c'; d'; p1'; p0'].
Proof. exact c20_inj. Qed.
Print Assumptions C20_endpoint_injective.

(** C20: exactly the texts "a.b.c.d:port" with numbers in range and no leading zeros (except in the
    port) are addresses. *)
Theorem C20_address_texts : forall s a b c d port, parse_socket_addr s = Some (a, b, c, d, port) <->
  (a < 256 /\ b < 256 /\ c < 256 /\ d < 256 /\ port < 65536)%N /\ exists k,
  s = decimal a ++ s2b "." ++ decimal b ++ s2b "." ++ decimal c ++ s2b "." ++ decimal d ++ s2b ":" ++ repeat 48%N k ++ decimal port.
Proof. exact c20_exact. Qed.
Print Assumptions C20_address_texts.

(** C20: with any other text, whoever tries to connect panics before the network is touched. *)
Theorem C20_other_texts_panic : forall ep,
  (forall a b c d port, parse_socket_addr ep <> Some (a, b, c, d, port)) ->
  (forall net, connect net ep = Panic) /\
  (forall fuel net pid h, get_info fuel net pid h ep = Panic) /\
  (forall sha1 p fuel net pid i idx, download sha1 p fuel net pid ep i idx = Panic).
Proof.
  intros ep H. destruct (parse_socket_addr ep) as [[[[[a b] c] d] port]|] eqn:E; [now elim (H a b c d port)|].
  assert (C : forall net, connect net ep = Panic) by (intros net; unfold connect; rewrite E; reflexivity).
  split; [exact C|]. split; intros; [unfold get_info|unfold download]; rewrite C; reflexivity.
Qed.
Print Assumptions C20_other_texts_panic.

Example C20_example : parse_socket_addr (s2b "10.0.255.1:65535") = Some (10, 0, 255, 1, 65535)%N /\
  parse_socket_addr (s2b "10.0.256.1:80") = None /\ parse_socket_addr (s2b "10.0.01.1:80") = None.
Proof. vm_compute. auto. Qed.

(** C21: the connect request. *)
Theorem C21_connect_request : forall tid, List.length tid = 4%nat ->
  bep15_connect tid (make_connection_message tid).
Proof. exact c21_connect. Qed.
Print Assumptions C21_connect_request.

(** C21: the announce request. *)
Theorem C21_announce_request : forall tid cid pid h, List.length tid = 4%nat -> List.length cid = 8%nat ->
  List.length pid = 20%nat -> List.length h = 20%nat ->
  bep15_announce cid tid h pid (make_announce_message tid cid pid h).
Proof. exact c21_announce. Qed.
Print Assumptions C21_announce_request.

(** C21: the announce does not say how much is left to download: whatever a torrent still lacks, no packet says so, and trackers
    take the client for a seed. *)
Theorem C21_left_never_said : forall s h pid u r s' left, udp_call true true s h pid u = Ret (r, s') ->
  List.length h = 20%nat -> List.length pid = 20%nat -> (0 < left < 2 ^ 64)%N ->
  exists sent, us_sent s' = us_sent s ++ sent /\ Forall (fun m => field 64 8 m <> big_endian 8 left) sent.
Proof. exact c21_left. Qed.
Print Assumptions C21_left_never_said.

Example C21_example : field 12 4 (make_connection_message udp_transaction_id) = [0; 1; 25; 158]%N /\
  field 36 20 (make_announce_message udp_transaction_id (repeat 1%N 8) (repeat 65%N 20) (repeat 7%N 20)) = repeat 65%N 20.
Proof. vm_compute. auto. Qed.

(** C22: any exchange: at most four connect packets, then at most one announce packet, which echoes
    bytes 8..16 of the first packet received; the result is the second packet from byte 20 on. *)
Theorem C22_udp_exchange : forall s h pid u r s', udp_call true true s h pid u = Ret (r, s') ->
  let connect_request := make_connection_message udp_transaction_id in
  let announce cid := make_announce_message udp_transaction_id cid pid h in
  exists n anns, (n <= 4)%nat /\ us_sent s' = us_sent s ++ repeat connect_request n ++ anns /\
  (anns = [] \/ exists errs pkt rest, Forall (fun x => x = None) errs /\
      us_recvs s = errs ++ Some pkt :: rest /\
      anns = [announce (firstn 8 (skipn 8 (pkt ++ repeat 0%N 16)))]) /\
  (forall b, r = Ok b -> exists errs pkt resp, Forall (fun x => x = None) errs /\
      us_recvs s = errs ++ Some pkt :: Some resp :: us_recvs s' /\ (26 < List.length resp)%nat /\
      b = skipn 20 (firstn 4000 resp)).
Proof. exact c22_general. Qed.
Print Assumptions C22_udp_exchange.

(** C22: every packet of every exchange carries the same transaction id, 0x1199e, so that anybody can forge an answer. *)
Theorem C22_transaction_id : forall s h pid u r s', udp_call true true s h pid u = Ret (r, s') ->
  exists sent, us_sent s' = us_sent s ++ sent /\ Forall (fun m => field 12 4 m = [0; 1; 25; 158]%N) sent.
Proof. exact c22_tid. Qed.
Print Assumptions C22_transaction_id.

(** C22: whatever two packets arrive are taken as the answers: nothing but the length is checked. *)
Theorem C22_answers_unchecked : forall h pid u pkt resp rest host port,
  u_host u = Some host -> u_port u = Some port ->
  udp_call true true {| us_sends := []; us_recvs := Some pkt :: Some resp :: rest; us_sent := [] |} h pid u
  = Ret (if (26 <? List.length resp)%nat then Ok (skipn 20 (firstn 4000 resp)) else Err UdpWrongResponseSize,
         {| us_sends := []; us_recvs := rest;
            us_sent := [make_connection_message udp_transaction_id;
                        make_announce_message udp_transaction_id
                          (firstn 8 (skipn 8 (pkt ++ repeat 0%N 16))) pid h] |}).
Proof. exact c22_answers. Qed.
Print Assumptions C22_answers_unchecked.

(** C22: a tracker that does not answer blocks the call for ever (there is no timeout). *)
Theorem C22_silence_blocks : forall h pid u host port n,
  u_host u = Some host -> u_port u = Some port -> (n < 4)%nat ->
  udp_call true true {| us_sends := []; us_recvs := repeat None n; us_sent := [] |} h pid u = OutOfFuel.
Proof. exact c22_silent. Qed.
Print Assumptions C22_silence_blocks.

(** C22: a correct announce response with exactly one peer is rejected. *)
Theorem C22_single_peer_rejected_refuted : exists pkt resp,
  firstn 8 pkt = big_endian 4 0 ++ udp_transaction_id /\ List.length pkt = 16%nat /\
  firstn 8 resp = big_endian 4 1 ++ udp_transaction_id /\ List.length resp = (20 + 6 * 1)%nat /\
  forall h pid u host port, u_host u = Some host -> u_port u = Some port ->
  exists s', udp_call true true {| us_sends := []; us_recvs := [Some pkt; Some resp]; us_sent := [] |} h pid u
    = Ret (Err UdpWrongResponseSize, s').
Proof.
  exists (big_endian 4 0 ++ udp_transaction_id ++ repeat 5%N 8),
         (big_endian 4 1 ++ udp_transaction_id ++ repeat 0%N 12 ++ [10; 0; 0; 1; 26; 225]%N).
  do 4 (split; [reflexivity|]). intros h pid u host port Hh Hp.
  eexists. rewrite (c22_answers h pid u _ _ [] host port Hh Hp). reflexivity.
Qed.
Print Assumptions C22_single_peer_rejected_refuted.

Example C22_example :
  let u := {| u_scheme := s2b "udp"; u_host := Some (s2b "t"); u_port := Some 80%N; u_text := s2b "udp://t:80" |} in
  match udp_call true true {| us_sends := [true; false]; us_recvs := [None; Some (repeat 9%N 16); Some (repeat 1%N 32)];
                              us_sent := [] |} (repeat 7%N 20) (repeat 65%N 20) u with
  | Ret (Ok b, s') => b = repeat 1%N 12 /\ List.length (us_sent s') = 2%nat
  | _ => False
  end.
Proof. vm_compute. auto. Qed.

(** C23: percent-encoding is faithful and safe. *)
Theorem C23_percent_encoding : forall h, bytes_ok h ->
  percent_decode (encode_binary h) = Some h /\ Forall safe_char (encode_binary h) /\
  (List.length h <= List.length (encode_binary h))%nat.
Proof. exact c23. Qed.
Print Assumptions C23_percent_encoding.

Theorem C23_injective : forall h h', bytes_ok h -> bytes_ok h' -> encode_binary h = encode_binary h' -> h = h'.
Proof. exact c23_inj. Qed.
Print Assumptions C23_injective.

(** C23: exactly the unreserved characters of RFC 3986 stand for themselves; the others become "%"
    and two upper-case digits. *)
Theorem C23_each_byte : forall b, (b < 256)%N ->
  (unreserved_char b /\ encode_binary [b] = [b]) \/
  (~ unreserved_char b /\ exists x y u v, encode_binary [b] = [37; x; y]%N /\ (u < 16 /\ v < 16)%N /\ b = (16 * u + v)%N /\
     nth_error (s2b "0123456789ABCDEF") (N.to_nat u) = Some x /\ nth_error (s2b "0123456789ABCDEF") (N.to_nat v) = Some y).
Proof. exact c23_exact. Qed.
Print Assumptions C23_each_byte.

(** C23: and a sequence is encoded byte by byte. *)
Theorem C23_byte_by_byte : forall h h', encode_binary (h ++ h') = encode_binary h ++ encode_binary h'.
Proof. exact c23_app. Qed.
Print Assumptions C23_byte_by_byte.

(** C23: the tracker query determines hash and peer id. *)
Theorem C23_query_faithful : forall t h pid h' pid', bytes_ok h -> bytes_ok h' ->
  tcp_request_url t h pid = tcp_request_url t h' pid' -> h = h' /\ pid = pid'.
Proof. exact c23_query. Qed.
Print Assumptions C23_query_faithful.

Example C23_example : encode_binary [47; 65; 38; 255; 126]%N = s2b "%2FA%26%FF~" /\
  percent_decode (s2b "%2FA%26%FF~") = Some [47; 65; 38; 255; 126]%N /\ ~ safe_char 47.
Proof.
  split; [vm_compute; reflexivity|]. split; [vm_compute; reflexivity|].
  intros [H|H]; [lia|]. cbn in H. intuition discriminate.
Qed.
