(** PropLookup: property C59 (asking a tracker for peers) *)
From Verif Require Import Base ModelBencode ModelTracker ModelMain SpecBencode SpecTorrent SpecMessages SpecTracker SpecLookup
  ProofBencode2 ProofLookup.

(** C59: an HTTP tracker that answers the query with a bencoded dictionary: exactly the peers in it. *)
Theorem C59_http : forall e u h d suf ps x, u_scheme u = s2b "http" -> bytes_ok h ->
  decodable is_text (BDict d) -> Forall (fun kv => distinct_keys (snd kv)) d ->
  last_binding d (s2b "peers") = Some (BStr (compact ps ++ x)) -> (List.length x < 6)%nat -> Forall address_ok ps ->
  (forall q, http_query (u_text u) h (le_pid e) q -> le_get e q = HttpBody (benc (BDict d) ++ suf)) ->
  exists es, lookup e u h = Ret (Ok es) /\ map endpoint es = map address_text ps.
Proof. exact c59_http. Qed.
Print Assumptions C59_http.

(** C59: a UDP tracker that answers both packets, with at least two peers: exactly the peers in the
    answer, as far as they fit 4000 bytes. *)
Theorem C59_udp : forall e u h host port (pkt hdr : bytes) ps (rest : list (option bytes)),
  u_scheme u = s2b "udp" -> u_host u = Some host -> u_port u = Some port ->
  le_bound e = true -> le_connected e = true ->
  le_socket e = {| us_sends := []; us_recvs := Some pkt :: Some (hdr ++ compact ps) :: rest; us_sent := [] |} ->
  List.length hdr = 20%nat -> (2 <= List.length ps)%nat -> Forall address_ok ps ->
  exists es, lookup e u h = Ret (Ok es) /\ map endpoint es = map address_text (firstn 663 ps).
Proof. exact c59_udp. Qed.
Print Assumptions C59_udp.

(** C59: an answer with fewer than two peers is an error. *)
Theorem C59_udp_few : forall e u h host port (pkt resp : bytes) (rest : list (option bytes)),
  u_scheme u = s2b "udp" -> u_host u = Some host -> u_port u = Some port ->
  le_bound e = true -> le_connected e = true ->
  le_socket e = {| us_sends := []; us_recvs := Some pkt :: Some resp :: rest; us_sent := [] |} ->
  (List.length resp <= 26)%nat ->
  lookup e u h = Ret (Err (TrUdp UdpWrongResponseSize)).
Proof. exact c59_udp_none. Qed.
Print Assumptions C59_udp_few.

(** C59: any other scheme, https included, is an error, whatever the network does. *)
Theorem C59_other_scheme : forall e u h, u_scheme u <> s2b "http" -> u_scheme u <> s2b "udp" ->
  lookup e u h = Ret (Err (TrProtocolNotSupported (u_scheme u))).
Proof. exact c59_scheme. Qed.
Print Assumptions C59_other_scheme.

(** C59: peers come from nowhere else: a successful lookup of an HTTP tracker reports the peers of
    the answer to the query. *)
Theorem C59_http_only : forall e u h es, u_scheme u = s2b "http" -> bytes_ok h -> lookup e u h = Ret (Ok es) ->
  exists q body m n b, http_query (u_text u) h (le_pid e) q /\ le_get e q = HttpBody body /\
    decode body = Ret (Ok (m, n)) /\ get_bytes_from_dict m (s2b "peers") = Ok b /\ endpoints_from_bytes b = Ret es.
Proof. exact c59_http_only. Qed.
Print Assumptions C59_http_only.

(** C59: with the built-in trackers a lookup aborts exactly if no UDP socket can be had or the tracker
    has no route. *)
Theorem C59_aborts_iff : forall e u h, In u tracker_urls ->
  (lookup e u h = Panic <-> le_bound e = false \/ le_connected e = false).
Proof. exact c59_panic. Qed.
Print Assumptions C59_aborts_iff.

Definition ex_address (k : N) : address := {| ad_1 := 10; ad_2 := 0; ad_3 := 0; ad_4 := 1 + k; ad_port := 6881 |}.
Definition ex_online (ps : list address) : lookup_env :=
  {| le_get := fun _ => HttpBody (benc (BDict [(s2b "interval", BInt 1800); (s2b "peers", BStr (compact ps))]));
     le_bound := true; le_connected := true;
     le_socket := {| us_sends := []; us_recvs := [Some (repeat 3%N 16); Some (repeat 4%N 20 ++ compact ps)]; us_sent := [] |};
     le_pid := repeat 65%N 20 |}.
Definition ex_offline : lookup_env :=
  {| le_get := fun _ => HttpFail; le_bound := true; le_connected := false;
     le_socket := {| us_sends := []; us_recvs := []; us_sent := [] |}; le_pid := repeat 65%N 20 |}.
Definition ex_http (scheme : bytes) : url :=
  {| u_scheme := scheme; u_host := Some (s2b "t"); u_port := Some 80%N; u_text := scheme ++ s2b "://t/a" |}.
Example C59_example :
  let ask e u := match lookup e u (repeat 7%N 20) with Ret (Ok es) => Some (map endpoint es) | _ => None end in
  let two := Some [s2b "10.0.0.1:6881"; s2b "10.0.0.2:6881"] in
  ask (ex_online [ex_address 0; ex_address 1]) (ex_http (s2b "http")) = two /\
  ask (ex_online [ex_address 0; ex_address 1]) (ex_http (s2b "udp")) = two /\
  ask (ex_online [ex_address 0; ex_address 1]) (ex_http (s2b "https")) = None /\
  ask (ex_online [ex_address 0]) (ex_http (s2b "udp")) = None /\
  lookup ex_offline (ex_http (s2b "udp")) (repeat 7%N 20) = Panic.
Proof. vm_compute. repeat split; reflexivity. Qed.
