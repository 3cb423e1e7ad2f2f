(** SpecTracker: compact peers, BEP 15 packets and percent-encoding, without helpers of the model. *)
From Verif Require Import Base SpecBencode SpecMessages SpecTorrent.

(** The text of an IPv4 endpoint. *)
Definition endpoint_text (a b c d port : N) : bytes :=
  decimal a ++ s2b "." ++ decimal b ++ s2b "." ++ decimal c ++ s2b "." ++ decimal d ++ s2b ":" ++ decimal port.

(** The [k]-th six-byte entry of a compact peer list. *)
Definition compact_entry (l : bytes) (k : nat) (a b c d p1 p0 : N) : Prop :=
  firstn 6 (skipn (6 * k) l) = [a; b; c; d; p1; p0].

(** [len] bytes at offset [off]. *)
Definition field (off len : nat) (l : bytes) : bytes := firstn len (skipn off l).

(** BEP 15: connect request. *)
Definition bep15_connect (tid m : bytes) : Prop :=
  List.length m = 16%nat /\
  field 0 8 m = big_endian 8 4497486125440 (* 0x41727101980 *) /\
  field 8 4 m = big_endian 4 0 /\
  field 12 4 m = tid.
(** BEP 15: IPv4 announce request. *)
Record bep15_announce (cid tid hash peer_id m : bytes) : Prop := {
  an_length : List.length m = 98%nat;
  an_connection_id : field 0 8 m = cid;
  an_action : field 8 4 m = big_endian 4 1;
  an_transaction_id : field 12 4 m = tid;
  an_info_hash : field 16 20 m = hash;
  an_peer_id : field 36 20 m = peer_id;
  an_downloaded : field 56 8 m = big_endian 8 0;
  an_left : field 64 8 m = big_endian 8 0;
  an_uploaded : field 72 8 m = big_endian 8 0;
  an_event : field 80 4 m = big_endian 4 0;
  an_ip : field 84 4 m = big_endian 4 0;
  an_key : field 88 4 m = big_endian 4 0;
  an_num_want : field 92 4 m = big_endian 4 (2 ^ 32 - 1);
  an_port : field 96 2 m = big_endian 2 8000
}.

(** Percent-decoding. *)
Fixpoint percent_decode (l : bytes) : option bytes :=
  match l with
  | [] => Some []
  | b :: t =>
    if (b =? 37)%N then
      match t with
      | x :: y :: r =>
        match hex_value x, hex_value y, percent_decode r with
        | Some h, Some l, Some s => Some ((16 * h + l)%N :: s)
        | _, _, _ => None
        end
      | _ => None
      end
    else match percent_decode t with Some s => Some (b :: s) | None => None end
  end.

(** Characters that may stand in a file name or a query value. *)
Definition safe_char (b : N) : Prop :=
  (48 <= b <= 57 \/ 65 <= b <= 90 \/ 97 <= b <= 122)%N \/ In b (s2b "-_.~%").
(** RFC 3986, 2.3: the characters that stand for themselves. *)
Definition unreserved_char (b : N) : Prop :=
  (48 <= b <= 57 \/ 65 <= b <= 90 \/ 97 <= b <= 122)%N \/ In b (s2b "-_.~").
