(** SpecWrites: connections that bring the same but differ in what happens to writes. *)
From Verif Require Import Base ModelMessages ModelStream ModelPeer SpecMessages SpecStream SpecPeer.

(** The same bytes at the same moments, the same errors, the same end; writes may do what they like. *)
Definition same_input (s s' : stream) : Prop :=
  st_avail s = st_avail s' /\ st_closed s = st_closed s' /\ st_sched s = st_sched s'.

(** The third write of a connection, that of the extension handshake, fails. *)
Definition third_write_fails (s : stream) : Prop := exists n, nth_error (st_wsched s) 2 = Some (Some n).

(** The first thing that is read is a handshake for the torrent [ih]. *)
Definition greets (s : stream) (ih : bytes) : Prop :=
  exists body len, fst (read_stream s) = Some (body, 19%N, len) /\ (68 <= List.length body)%nat /\ firstn 20 (skipn 28 body) = ih.

(** [v] (body, id, length) is one of the messages that successive attempts to read from [s] bring. *)
Definition meets (s : stream) (v : bytes * N * N) : Prop :=
  exists n, fst (read_stream (snd (read_messages n s))) = Some v.
(** A parsed message that is met. *)
Definition meets_message (s : stream) (m : message) : Prop :=
  exists body id len, meets s (body, id, len) /\ new_raw body len id = Ret (Ok m).
