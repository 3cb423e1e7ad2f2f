(** SpecStream: byte streams that arrive over time, without helpers of the model. *)
From Verif Require Import Base ModelStream SpecMessages.

(** The bytes delivered by some ticks of the environment: none after the remote end has closed. *)
Fixpoint delivered (closed : bool) (ticks : list tick) : bytes :=
  match ticks with
  | [] => []
  | TData c :: t => (if closed then [] else c) ++ delivered closed t
  | TErr :: t => delivered closed t
  | TClose :: t => delivered true t
  end.
(** All bytes that can still be read: those buffered and those to come. *)
Definition incoming (s : stream) : bytes := st_avail s ++ delivered (st_closed s) (st_sched s).
(** The bytes buffered after [k] more ticks if nothing is read meanwhile. *)
Definition buffered_after (k : nat) (s : stream) : bytes :=
  st_avail s ++ delivered (st_closed s) (firstn k (st_sched s)).
(** No read error occurs in the next [k] ticks. *)
Definition no_errors (k : nat) (s : stream) : Prop := Forall (fun t => t <> TErr) (firstn k (st_sched s)).

(** A length that does not look like the first byte of a handshake: less than 19 * 2^24. *)
Definition short_body (body : bytes) : Prop := (lenN body + 1 < 19 * 2 ^ 24)%N.

(** Reading several messages in a row. *)
Fixpoint read_messages (n : nat) (s : stream) : list (option (bytes * N * N)) * stream :=
  match n with
  | O => ([], s)
  | S n' =>
    let (r, s1) := read_stream s in
    let (rs, s2) := read_messages n' s1 in (r :: rs, s2)
  end.
