(** SpecOutput: what a session writes to the socket, without helpers of the model. *)
From Verif Require Import Base ModelBencode ModelMessages ModelStream ModelPeer SpecBencode SpecMessages SpecStream SpecPeer.

(** Messages and the bytes of them that were sent: every write sends a message or, if it fails, the
    beginning of it. *)
Inductive sent_as : list bytes -> bytes -> Prop :=
| sa_nil : sent_as [] []
| sa_cons m ms c b : (exists rest, m = c ++ rest) -> sent_as ms b -> sent_as (m :: ms) (c ++ b).

(** [y] has been sent [msgs] since [s]: all of them, unless writes fail. *)
Definition has_sent (s : stream) (y : peer) (msgs : list bytes) : Prop :=
  exists new, st_sent (p_stream y) = st_sent s ++ new /\ sent_as msgs new /\
    (st_wsched s = [] -> new = List.concat msgs).

(** Numbers in non-decreasing order. *)
Definition non_decreasing (l : list N) : Prop := forall a x b y c, l = a ++ x :: b ++ y :: c -> (x <= y)%N.

(** The three messages of the initialisation. *)
Definition opening_messages (ih pid : bytes) : list bytes := [handshake_layout ih pid; frame 2 []; extension_handshake].

(** The request for a block of a piece, and the request for a block of the metadata. *)
Definition block_length (i total plen b : N) : N := N.min (total - i * plen - b * 16384) 16384.
Definition block_request_bytes (i total plen b : N) : bytes :=
  frame 6 (big_endian 4 i ++ big_endian 4 (b * 16384) ++ big_endian 4 (block_length i total plen b)).
Definition info_request_bytes (id b : N) : bytes := frame 20 (id :: benc (metadata_request b)).
Definition is_client_request (r : bytes) : Prop :=
  (exists i total plen n, r = block_request_bytes i total plen n) \/ (exists id n, (n < 2 ^ 64)%N /\ r = info_request_bytes id n).

(** Everything another instance of this client may have sent. *)
Definition sent_by_client (b : bytes) : Prop :=
  exists pid ih reqs, List.length pid = 20%nat /\ List.length ih = 20%nat /\ Forall is_client_request reqs /\
    b = List.concat (opening_messages ih pid ++ reqs).
(** All of [b], and nothing else, has arrived. *)
Definition arrived (s : stream) (b : bytes) : Prop :=
  st_avail s = b /\ incoming s = b /\ Forall (fun t => t <> TErr) (st_sched s).
