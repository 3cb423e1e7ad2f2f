(** SpecAsk: how asking a tracker can end, without helpers of the model (only its types). *)
From Verif Require Import Base ModelBencode ModelTracker SpecBencode SpecTorrent SpecMessages SpecTracker SpecLookup SpecText SpecGrammar.

(** [told b es]: the bytes [b] list exactly the peers [es], six bytes each; a shorter rest is ignored. *)
Definition told (b : bytes) (es : list peer_endpoint) : Prop := exists ps x, b = compact ps ++ x /\ (List.length x < 6)%nat /\
  Forall address_ok ps /\ Forall2 (fun e a => pe_port e = ad_port a /\ endpoint e = address_text a) es ps.

(** The body starts with a dictionary that has these entries; anything may follow. *)
Definition answers_with (body : bytes) (es : list (bytes * metainfo)) : Prop := exists s r, body = 100%N :: s /\ entries s es r.
(** The string under "peers" (of several entries the last). *)
Definition names_peers (body b : bytes) : Prop := exists es, answers_with body es /\ last_binding es (s2b "peers") = Some (MString b).

(** How a conversation over UDP ends. *)
Inductive verdict := Waits | Refused | CannotSend | CannotReceive | TooShort | Answer (b : bytes).

(** [talk sends recvs v]: four rounds of asking for a connection, until a datagram arrives (its content does not
    matter); one announce; one answer, of which 4000 bytes are read. Failed requests for a connection do not matter. *)
Inductive talk (sends : list bool) (recvs : list (option bytes)) : verdict -> Prop :=
| talk_silence k : (k < 4)%nat -> recvs = repeat None k -> talk sends recvs Waits
| talk_refused rest : recvs = repeat None 4 ++ rest -> talk sends recvs Refused
| talk_unsent k pkt rest : (k < 4)%nat -> recvs = repeat None k ++ Some pkt :: rest -> nth (S k) sends true = false ->
    talk sends recvs CannotSend
| talk_unanswered k pkt : (k < 4)%nat -> recvs = repeat None k ++ [Some pkt] -> nth (S k) sends true = true ->
    talk sends recvs Waits
| talk_broken k pkt rest : (k < 4)%nat -> recvs = repeat None k ++ Some pkt :: None :: rest -> nth (S k) sends true = true ->
    talk sends recvs CannotReceive
| talk_short k pkt resp rest : (k < 4)%nat -> recvs = repeat None k ++ Some pkt :: Some resp :: rest -> nth (S k) sends true = true ->
    (List.length resp <= 26)%nat -> talk sends recvs TooShort
| talk_answer k pkt resp rest : (k < 4)%nat -> recvs = repeat None k ++ Some pkt :: Some resp :: rest -> nth (S k) sends true = true ->
    (26 < List.length resp)%nat -> talk sends recvs (Answer (skipn 20 (firstn 4000 resp))).

(** The packets that were sent: one request per round whose sending worked, then the announce with the eight bytes at
    offset 8 of the first datagram (missing ones are 0). *)
Definition requested (sends : list bool) (n : nat) : nat :=
  List.length (filter (fun b => b) (firstn n (sends ++ repeat true n))).
Definition connection_of (pkt : bytes) : bytes := firstn 8 (skipn 8 (pkt ++ repeat 0%N 16)).
