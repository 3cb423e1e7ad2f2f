(** PropAsk: property C69 (every way in which asking a tracker can end) *)
From Verif Require Import Base ModelBencode ModelTracker ModelMain SpecBencode SpecTorrent SpecMessages SpecTracker SpecLookup SpecText SpecGrammar SpecAsk
  ProofBencode2 ProofAsk.

(** C69: an HTTP tracker. The lookup sends one query; what becomes of it is decided by the response alone. *)
Theorem C69_http : forall e u h, u_scheme u = s2b "http" -> bytes_ok h -> exists q, http_query (u_text u) h (le_pid e) q /\
  match le_get e q with
  | HttpFail => lookup e u h = Ret (Err (TrTcp (TcpConnection q)))
  | HttpUnreadable => lookup e u h = Ret (Err (TrTcp TcpBufferReading))
  | HttpBody body => bytes_ok body ->
    (forall es, lookup e u h = Ret (Ok es) <-> exists b, names_peers body b /\ told b es) /\
    ((exists x, lookup e u h = Ret (Err (TrTcp (TcpMetainfo x)))) <-> (exists v r, value body v r) /\ forall b, ~ names_peers body b) /\
    ((exists x, lookup e u h = Ret (Err (TrTcp (TcpDecoder x)))) <-> exists f, value_fails body f /\ f <> Cut) /\
    (lookup e u h = Panic <-> value_fails body Cut) /\
    (lookup e u h = OutOfFuel <-> value_hangs body)
  end.
Proof. exact c69_http. Qed.
Print Assumptions C69_http.

(** C69: a tracker that answers in the form of BEP 3, with a list of dictionaries, is not understood (and the query does
    not ask for the compact form). *)
Theorem C69_plain_peers_refuted : exists d peer, decodable is_text (BDict d) /\ Forall (fun kv => distinct_keys (snd kv)) d /\
  In (s2b "peers", BList [BDict peer]) d /\ In (s2b "ip", BStr (s2b "10.0.0.1")) peer /\ In (s2b "port", BInt 6881) peer /\
  forall e u h, u_scheme u = s2b "http" -> (forall q, le_get e q = HttpBody (benc (BDict d))) ->
  lookup e u h = Ret (Err (TrTcp (TcpMetainfo (BadMetainfoMatch KString KList)))).
Proof. exact c69_plain. Qed.
Print Assumptions C69_plain_peers_refuted.

(** C69: a UDP tracker. Whatever is sent, lost or received: the conversation ends in exactly one of six ways, ... *)
Theorem C69_udp : forall e u h host port, u_scheme u = s2b "udp" -> u_host u = Some host -> u_port u = Some port ->
  le_bound e = true -> le_connected e = true -> (forall b, In (Some b) (us_recvs (le_socket e)) -> bytes_ok b) ->
  exists v, talk (us_sends (le_socket e)) (us_recvs (le_socket e)) v /\
  match v with
  | Waits => lookup e u h = OutOfFuel
  | Refused => lookup e u h = Ret (Err (TrUdp UdpNoConnection))
  | CannotSend => lookup e u h = Ret (Err (TrUdp UdpSendError))
  | CannotReceive => lookup e u h = Ret (Err (TrUdp UdpReceiveError))
  | TooShort => lookup e u h = Ret (Err (TrUdp UdpWrongResponseSize))
  | Answer b => forall es, lookup e u h = Ret (Ok es) <-> told b es
  end.
Proof. exact c69_udp. Qed.
Print Assumptions C69_udp.

(** C69: ... not in two, ... *)
Theorem C69_one_verdict : forall sends recvs v v', talk sends recvs v -> talk sends recvs v' -> v = v'.
Proof. exact talk_unique. Qed.
Print Assumptions C69_one_verdict.

(** C69: ... and these are the packets it took. *)
Theorem C69_packets : forall s h pid u host port r s', u_host u = Some host -> u_port u = Some port ->
  udp_call true true s h pid u = Ret (r, s') ->
  exists n connects announces, (n <= 4)%nat /\ us_sent s' = us_sent s ++ repeat connects (requested (us_sends s) n) ++ announces /\
    bep15_connect udp_transaction_id connects /\
    ((r = Err UdpNoConnection /\ n = 4%nat /\ announces = []) \/
     exists k pkt rest, n = S k /\ us_recvs s = repeat None k ++ Some pkt :: rest /\
       ((r = Err UdpSendError /\ announces = []) \/
        (r <> Err UdpSendError /\ r <> Err UdpNoConnection /\ exists m, announces = [m] /\ (List.length pid = 20%nat -> List.length h = 20%nat ->
           bep15_announce (connection_of pkt) udp_transaction_id h pid m)))).
Proof. exact c69_sent. Qed.
Print Assumptions C69_packets.

(** C69: a UDP lookup that does not get as far as a conversation. *)
Theorem C69_not_begun : forall e u h, u_scheme u = s2b "udp" -> le_bound e = false \/ u_host u = None \/ u_port u = None \/ le_connected e = false ->
  lookup e u h = if le_bound e then match u_host u, u_port u with
    | None, _ => Ret (Err (TrUdp UdpHostnameMissing))
    | _, None => Ret (Err (TrUdp UdpPostMissing))
    | _, _ => Panic
    end else Panic.
Proof. exact c69_before. Qed.
Print Assumptions C69_not_begun.

(** The first request for a connection is lost, the third datagram lists two peers and one byte more. *)
Definition ex_ask (sends : list bool) (recvs : list (option bytes)) (body : bytes) : lookup_env :=
  {| le_get := fun _ => HttpBody body; le_bound := true; le_connected := true;
     le_socket := {| us_sends := sends; us_recvs := recvs; us_sent := [] |}; le_pid := repeat 65%N 20 |}.
Definition ex_two : bytes := [10; 0; 0; 1; 26; 225; 10; 0; 0; 2; 0; 80; 9]%N.
Definition ex_url (scheme : bytes) : url := {| u_scheme := scheme; u_host := Some (s2b "t"); u_port := Some 80%N; u_text := scheme ++ s2b "://t/a" |}.
Example C69_example :
  let recvs := [None; Some (repeat 1%N 16); Some (repeat 2%N 20 ++ ex_two)] in
  let ask e scheme := match lookup e (ex_url scheme) (repeat 7%N 20) with Ret (Ok es) => Some (map endpoint es) | _ => None end in
  let two := Some [s2b "10.0.0.1:6881"; s2b "10.0.0.2:80"] in
  talk [false; true; true] recvs (Answer ex_two) /\ talk [true; true; false] recvs CannotSend /\
  ask (ex_ask [false; true; true] recvs []) (s2b "udp") = two /\ ask (ex_ask [true; true; false] recvs []) (s2b "udp") = None /\
  ask (ex_ask [] [] (s2b "d5:peersi1e5:peers13:" ++ ex_two ++ s2b "ejunk")) (s2b "http") = two /\
  lookup (ex_ask [] [] (s2b "d5:peers3:a")) (ex_url (s2b "http")) (repeat 7%N 20) = Panic /\
  requested [false; true; true] 2 = 1%nat.
Proof.
  split; [|split; [|vm_compute; repeat split; reflexivity]].
  - exact (talk_answer [false; true; true] _ 1 (repeat 1%N 16) (repeat 2%N 20 ++ ex_two) [] ltac:(lia) eq_refl eq_refl ltac:(cbn; lia)).
  - exact (talk_unsent [true; true; false] _ 1 (repeat 1%N 16) _ ltac:(lia) eq_refl eq_refl).
Qed.
