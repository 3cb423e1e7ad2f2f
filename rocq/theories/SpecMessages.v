(** SpecMessages: peer wire format, without helpers of the model. *)
From Verif Require Import Base SpecBencode.

(** The [k]-byte big-endian representation of a number, and the number represented. *)
Fixpoint big_endian (k : nat) (n : N) : bytes :=
  match k with
  | O => []
  | S k' => big_endian k' (n / 256)%N ++ [(n mod 256)%N]
  end.
Fixpoint big_endian_value (l : bytes) : N :=
  match l with
  | [] => 0%N
  | b :: t => (b * 256 ^ N.of_nat (List.length t) + big_endian_value t)%N
  end.

(** A framed peer message: length of what follows, id, body. *)
Definition frame (id : N) (body : bytes) : bytes :=
  big_endian 4 (N.of_nat (1 + List.length body)) ++ [id] ++ body.
Definition frame_ok (m : N * bytes) : Prop :=
  (fst m < 256)%N /\ (N.of_nat (List.length (snd m)) + 1 < 2 ^ 32)%N.

(** The BEP-3 handshake with the extension protocol bit (BEP 10). *)
Definition handshake_layout (info_hash peer_id : bytes) : bytes :=
  [19%N] ++ s2b "BitTorrent protocol" ++ [0; 0; 0; 0; 0; 16; 0; 0]%N ++ info_hash ++ peer_id.

(** The extension handshake (BEP 10) sent to every peer: ut_metadata has the number 1, ut_pex the number
    2, and the size of the metadata is said to be 28282. *)
Definition extension_handshake : bytes :=
  frame 20 (0%N :: benc (BDict [(s2b "m", BDict [(s2b "ut_metadata", BInt 1); (s2b "ut_pex", BInt 2)]);
                                (s2b "metadata_size", BInt 28282)])).

(** The BEP-9 metadata request dictionary. *)
Definition metadata_request (piece : N) : bval :=
  BDict [(s2b "msg_type", BInt 0); (s2b "piece", BInt piece)].
