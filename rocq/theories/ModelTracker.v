(** ModelTracker: src/tracker/*.rs, src/common/generator.rs and the std / crate functions they use *)
From Verif Require Import Base Utf8 ModelBencode.

(** ** peer_endpoint.rs *)

(** peer_endpoint.rs 3-4: struct PeerEndpoint(String, u16). *)
Record peer_endpoint := { pe_ip : bytes; pe_port : N }.

(** peer_endpoint.rs 11-17: one 6-byte chunk. 46 is '.'. *)
Definition endpoint_of_chunk (chunk : bytes) : outcome peer_endpoint :=
  c0 <- index chunk 0 ;; c1 <- index chunk 1 ;; c2 <- index chunk 2 ;; c3 <- index chunk 3 ;;
  c4 <- index chunk 4 ;; c5 <- index chunk 5 ;;
  Ret {| pe_ip := dec c0 ++ [46%N] ++ dec c1 ++ [46%N] ++ dec c2 ++ [46%N] ++ dec c3;
         pe_port := N.lor (N.shiftl c4 8 mod 65536) c5 |}.

(** peer_endpoint.rs 7-21: from_bytes. *)
Fixpoint endpoints_of_chunks (l : list bytes) : outcome (list peer_endpoint) :=
  match l with
  | [] => Ret []
  | c :: t => e <- endpoint_of_chunk c ;; es <- endpoints_of_chunks t ;; Ret (e :: es)
  end.
Definition endpoints_from_bytes (b : bytes) : outcome (list peer_endpoint) :=
  endpoints_of_chunks (chunks_exact 6 b).

(** peer_endpoint.rs 30-32: endpoint(). 58 is ':'. *)
Definition endpoint (e : peer_endpoint) : bytes := pe_ip e ++ [58%N] ++ dec (pe_port e).

(** std::net::parser, IPv4 socket addresses only (V6 texts never occur: they come from [endpoint]).
    [read_number]: decimal digits, at most [max] of them, value at most [bound], and without
    superfluous leading zero unless [zero_prefix]. Returns the value and the rest. *)
Fixpoint read_digits (s : bytes) : bytes * bytes :=
  match s with
  | [] => ([], [])
  | b :: t => if is_digit b then let (d, r) := read_digits t in (b :: d, r) else ([], s)
  end.
Definition read_number (max : option nat) (bound : N) (zero_prefix : bool) (s : bytes)
  : option (N * bytes) :=
  let (d, r) := read_digits s in
  let v := digits_value d in
  if (List.length d =? 0)%nat then None
  else if match max with Some m => (m <? List.length d)%nat | None => false end then None
  else if (bound <? v)%N then None
  else if negb zero_prefix && (1 <? List.length d)%nat && match d with b :: _ => (b =? 48)%N | [] => false end
       then None
  else Some (v, r).
Definition read_char (c : N) (s : bytes) : option bytes :=
  match s with
  | b :: t => if (b =? c)%N then Some t else None
  | [] => None
  end.
Definition bindo {A B} (o : option A) (f : A -> option B) : option B :=
  match o with Some a => f a | None => None end.
Definition parse_socket_addr (s : bytes) : option (N * N * N * N * N) :=
  bindo (read_number (Some 3) 255 false s) (fun '(a, s1) =>
  bindo (read_char 46 s1) (fun s2 =>
  bindo (read_number (Some 3) 255 false s2) (fun '(b, s3) =>
  bindo (read_char 46 s3) (fun s4 =>
  bindo (read_number (Some 3) 255 false s4) (fun '(c, s5) =>
  bindo (read_char 46 s5) (fun s6 =>
  bindo (read_number (Some 3) 255 false s6) (fun '(d, s7) =>
  bindo (read_char 58 s7) (fun s8 =>
  bindo (read_number None 65535 true s8) (fun '(port, s9) =>
  match s9 with
  | [] => Some (a, b, c, d, port)
  | _ => None
  end))))))))).

(** peer_endpoint.rs 23-28: is_reachable; [connects] stands for the outcome of connect_timeout. *)
Definition is_reachable (connects : N * N * N * N * N -> bool) (ep : bytes) : bool :=
  match parse_socket_addr ep with
  | Some a => connects a
  | None => false
  end.

(** ** common/generator.rs 4-10: the random peer id is any 20 ASCII letters and digits. *)
Definition is_alnum (b : N) : bool :=
  is_digit b || ((65 <=? b)%N && (b <=? 90)%N) || ((97 <=? b)%N && (b <=? 122)%N).
Definition valid_peer_id (pid : bytes) : bool :=
  (List.length pid =? 20)%nat && forallb is_alnum pid.

(** ** crate urlencoding 2.1: encode_binary. Letters, digits and -_.~ stay, the rest is %XX. *)
Definition unreserved (b : N) : bool :=
  is_alnum b || (b =? 45)%N || (b =? 95)%N || (b =? 46)%N || (b =? 126)%N.
Definition hex_digit (d : N) : N := if (d <? 10)%N then (48 + d)%N else (55 + d)%N.
Definition encode_byte (b : N) : bytes :=
  if unreserved b then [b] else [37%N; hex_digit (b / 16); hex_digit (b mod 16)].
Definition encode_binary (b : bytes) : bytes := flat_map encode_byte b.

(** ** A parsed tracker URL (crate url, not modelled): scheme, host, port, full text. *)
Record url := { u_scheme : bytes; u_host : option bytes; u_port : option N; u_text : bytes }.

(** ** tcp_tracker.rs *)

(** tcp_tracker.rs 10-20: enum TcpTrackerError. *)
Inductive tcp_error :=
| TcpMetainfo (e : metainfo_error)
| TcpDecoder (e : decoder_error)
| TcpConnection (url : bytes)
| TcpBufferReading.

(** tcp_tracker.rs 23-30: the request URL. *)
Definition tcp_request_url (tracker info_hash peer_id : bytes) : bytes :=
  tracker ++ s2b "?info_hash=" ++ encode_binary info_hash ++ s2b "&peer_id=" ++ peer_id.

(** What the HTTP client did with a request: no response, unreadable body, or a body. *)
Inductive http := HttpFail | HttpUnreadable | HttpBody (b : bytes).

(** tcp_tracker.rs 22-41: call; [get] stands for ureq (lines 43-53). *)
Definition tcp_call (get : bytes -> http) (info_hash peer_id : bytes) (tracker : url)
  : outcome (result bytes tcp_error) :=
  let u := tcp_request_url (u_text tracker) info_hash peer_id in
  match get u with
  | HttpFail => Ret (Err (TcpConnection u))
  | HttpUnreadable => Ret (Err TcpBufferReading)
  | HttpBody b =>
    r <- decode b ;;
    match r with
    | Err e => Ret (Err (TcpDecoder e))
    | Ok (m, _) =>
      match get_bytes_from_dict m (s2b "peers") with
      | Ok v => Ret (Ok v)
      | Err e => Ret (Err (TcpMetainfo e))
      end
    end
  end.

(** ** udp_tracker.rs *)

(** udp_tracker.rs 5-19: enum UdpTrackerError. *)
Inductive udp_error :=
| UdpPostMissing | UdpHostnameMissing | UdpWrongResponseSize | UdpNoConnection
| UdpReceiveError | UdpSendError.

(** udp_tracker.rs 99-104 *)
Definition make_connection_message (transaction_id : bytes) : bytes :=
  let connection_id := [0; 0; 4; 23; 39; 16; 25; 128]%N in
  let action := [0; 0; 0; 0]%N in
  connection_id ++ action ++ transaction_id.

(** udp_tracker.rs 106-140 *)
Definition make_announce_message (transaction_id connection_id peer_id info_hash : bytes) : bytes :=
  let action := be32 1 in
  let downloaded := [0; 0; 0; 0; 0; 0; 0; 0]%N in
  let left := [0; 0; 0; 0; 0; 0; 0; 0]%N in
  let uploaded := [0; 0; 0; 0; 0; 0; 0; 0]%N in
  let event := [0; 0; 0; 0]%N in
  let ip := [0; 0; 0; 0]%N in
  let key := [0; 0; 0; 0]%N in
  let num_want := [255; 255; 255; 255]%N in
  let port := [31; 64]%N in
  connection_id ++ action ++ transaction_id ++ info_hash ++ peer_id ++ downloaded ++ left
  ++ uploaded ++ event ++ ip ++ key ++ num_want ++ port.

(** What the UDP socket does: the outcome of each send (in order; [] means success) and of each
    receive ([None] an error; when the list is exhausted nothing ever arrives). [us_sent] is the
    log of the packets handed to send successfully. *)
Record udp_socket := {
  us_sends : list bool;
  us_recvs : list (option bytes);
  us_sent : list bytes
}.

(** udp_tracker.rs 92-97: send_upd_packet; the boolean is success. *)
Definition udp_send (s : udp_socket) (m : bytes) : bool * udp_socket :=
  match us_sends s with
  | false :: r => (false, {| us_sends := r; us_recvs := us_recvs s; us_sent := us_sent s |})
  | true :: r => (true, {| us_sends := r; us_recvs := us_recvs s; us_sent := us_sent s ++ [m] |})
  | [] => (true, {| us_sends := []; us_recvs := us_recvs s; us_sent := us_sent s ++ [m] |})
  end.

(** udp_tracker.rs 83-90: read_upd_packet into a buffer of [size] bytes (longer datagrams are cut).
    [OutOfFuel] means that recv_from waits for ever: the code sets no timeout. *)
Definition udp_recv (s : udp_socket) (size : nat) : outcome (option bytes * udp_socket) :=
  match us_recvs s with
  | [] => OutOfFuel
  | None :: r => Ret (None, {| us_sends := us_sends s; us_recvs := r; us_sent := us_sent s |})
  | Some b :: r =>
    Ret (Some (firstn size b), {| us_sends := us_sends s; us_recvs := r; us_sent := us_sent s |})
  end.

(** A [size]-byte zeroed buffer after [got] was received into it. *)
Definition fill (size : nat) (got : bytes) : bytes := got ++ repeat 0%N (size - List.length got).

(** udp_tracker.rs 62-81: connect_to_tracker; [tries] counts the remaining rounds (4 in total). *)
Fixpoint connect_rounds (tries : nat) (message : bytes) (s : udp_socket)
  : outcome (result bytes udp_error * udp_socket) :=
  match tries with
  | O => Ret (Err UdpNoConnection, s)
  | S t =>
    let (_, s1) := udp_send s message in
    '(got, s2) <- udp_recv s1 16 ;;
    match got with
    | Some b => Ret (Ok (skipn 8 (fill 16 b)), s2)
    | None => connect_rounds t message s2
    end
  end.
Definition connect_to_tracker (transaction_id : bytes) (s : udp_socket)
  : outcome (result bytes udp_error * udp_socket) :=
  connect_rounds 4 (make_connection_message transaction_id) s.

(** udp_tracker.rs 42 *)
Definition udp_transaction_id : bytes := [0; 1; 25; 158]%N.

(** udp_tracker.rs 21-60: call. [bound] and [connected] say whether bind (26-28) and connect (37-40)
    succeed; both are followed by [expect]. The socket is returned for its log. *)
Definition udp_call (bound connected : bool) (s : udp_socket) (info_hash peer_id : bytes)
  (tracker : url) : outcome (result bytes udp_error * udp_socket) :=
  if negb bound then Panic
  else match u_host tracker with
  | None => Ret (Err UdpHostnameMissing, s)
  | Some _ =>
    match u_port tracker with
    | None => Ret (Err UdpPostMissing, s)
    | Some _ =>
      if negb connected then Panic
      else
        '(r, s1) <- connect_to_tracker udp_transaction_id s ;;
        match r with
        | Err e => Ret (Err e, s1)
        | Ok connection_id =>
          let message := make_announce_message udp_transaction_id connection_id peer_id info_hash in
          let (sent_ok, s2) := udp_send s1 message in
          if negb sent_ok then Ret (Err UdpSendError, s2)
          else
            '(got, s3) <- udp_recv s2 4000 ;;
            match got with
            | None => Ret (Err UdpReceiveError, s3)
            | Some b =>
              if (26 <? List.length b)%nat then
                r <- slice (fill 4000 b) 20 (List.length b) ;; Ret (Ok r, s3)
              else Ret (Err UdpWrongResponseSize, s3)
            end
        end
    end
  end.

(** ** tracker/mod.rs *)

(** mod.rs 17-25: enum TrackerError. *)
Inductive tracker_error :=
| TrTcp (e : tcp_error)
| TrUdp (e : udp_error)
| TrProtocolNotSupported (scheme : bytes).

(** mod.rs 27-44: get_peers_by_tracker. *)
Definition get_peers_by_tracker (get : bytes -> http) (bound connected : bool) (s : udp_socket)
  (peer_id : bytes) (tracker : url) (info_hash : bytes)
  : outcome (result (list peer_endpoint) tracker_error) :=
  if bytes_eqb (u_scheme tracker) (s2b "http") then
    r <- tcp_call get info_hash peer_id tracker ;;
    match r with
    | Ok b => es <- endpoints_from_bytes b ;; Ret (Ok es)
    | Err e => Ret (Err (TrTcp e))
    end
  else if bytes_eqb (u_scheme tracker) (s2b "udp") then
    '(r, _) <- udp_call bound connected s info_hash peer_id tracker ;;
    match r with
    | Ok b => es <- endpoints_from_bytes b ;; Ret (Ok es)
    | Err e => Ret (Err (TrUdp e))
    end
  else Ret (Err (TrProtocolNotSupported (u_scheme tracker))).
