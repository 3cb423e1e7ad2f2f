(** SpecTimed: a server at some distance, without helpers of the model. *)
From Verif Require Import Base ModelBencode ModelMessages ModelStream ModelPeer SpecBencode SpecMessages SpecStream SpecPeer SpecSession SpecWriter SpecLive.

(** The server of SpecLive, behind a network on which it takes [rtt] milliseconds until something that was written has arrived there and
    an answer has come back, beside the time that the server takes itself. Its delays are milliseconds, each counted from the message
    before; every message comes in one segment. *)
Fixpoint stamped (start : N) (l : list (nat * bytes)) : list (N * tick) :=
  match l with
  | [] => []
  | (d, b) :: t => (start + N.of_nat d, TData b)%N :: stamped (start + N.of_nat d) t
  end.
Definition far (rtt : N) (v : server) (now : N) (r : serving) (b : bytes) : list (N * tick) * serving :=
  let r1 := server_hears v {| sv_heard := sv_heard r; sv_greeted := sv_greeted r; sv_owes := [] |} b in
  (stamped (now + rtt) (sv_owes r1), {| sv_heard := sv_heard r1; sv_greeted := sv_greeted r1; sv_owes := [] |}).

(** The moments at which messages come that are sent one after the other. *)
Fixpoint moments_of (start : N) (l : list (nat * raw)) : list (N * raw) :=
  match l with
  | [] => []
  | (d, m) :: t => (start + N.of_nat d, m)%N :: moments_of (start + N.of_nat d) t
  end.
(** What the server sends of its own accord, if its handshake comes at [t] and is answered at once. *)
Definition opening_at (rtt : N) (v : server) (t : N) : list (N * raw) :=
  moments_of t (sd_hello v) ++ moments_of (t + rtt) (sd_interested v) ++ moments_of (t + rtt) (sd_extended v).

(** When a client that begins to read at [now] has read a message that comes at [t]: at once when it is there; but after a message without
    a body it waits for the one that follows it, twice a tenth of a second at most. *)
Definition read_by (now t : N) (m : raw) (rest : list (N * raw)) : N :=
  let here := N.max now t in
  match snd m with
  | [] => match rest with
          | (t', _) :: _ => N.min (N.max here t') (here + 200)
          | [] => here + 200
          end
  | _ => here
  end%N.
(** When it has read all of them; and how many attempts that takes, if every attempt lasts a tenth of a second at most. *)
Fixpoint all_read (now : N) (l : list (N * raw)) : N :=
  match l with [] => now | (t, m) :: r => all_read (read_by now t m r) r end.
Fixpoint tries (now : N) (l : list (N * raw)) : N :=
  match l with [] => 0 | (t, m) :: r => N.max 1 (piece_count (t - now) 100) + tries (read_by now t m r) r end%N.

(** The opening is over with its last message: only then the client is unchoked and knows the size of the metadata. *)
Definition opened_by_the_last (v : server) : Prop := forall a b, opening v = a ++ b -> b <> [] ->
  (forall q body, ~ In (q, (1%N, body)) a) \/ (forall q r m n e, In (q, r) a -> parsed r m -> states_size m <> Some (n, e)).
Record near (rtt : N) (size : N -> hmap N -> Prop) (v : server) : Prop := {
  ne_rtt : (rtt <= 100)%N;
  ne_pid : List.length (sd_pid v) = 20%nat;
  ne_whole : forall m, sd_cuts v m = [];
  ne_soon : forall t, (tries t (opening_at rtt v t) <= 10)%N;
  ne_unchokes : exists q body, In (q, (1%N, body)) (opening v);
  ne_states : exists q r m n e, In (q, r) (opening v) /\ parsed r m /\ states_size m = Some (n, e);
  ne_behaves : forall q r, In (q, r) (opening v) -> well_behaved size r /\ short_body (snd r);
  ne_last : opened_by_the_last v
}.
(** When the client, connected at [now], is ready to ask for data. *)
Definition ready_at (rtt : N) (v : server) (now : N) : N := all_read (now + rtt) (opening_at rtt v (now + rtt)).
(** The requests for the blocks of a piece of [len] bytes. *)
Definition request_for (idx len n : N) : raw := (6%N, big_endian 4 idx ++ big_endian 4 (n * 16384) ++ big_endian 4 (N.min 16384 (len - n * 16384))).
(** How long [k] blocks take, one after the other. *)
Fixpoint one_by_one (rtt : N) (delay : N -> nat) (k : nat) : N :=
  match k with O => 0 | S j => one_by_one rtt delay j + (rtt + N.of_nat (delay (N.of_nat j))) end%N.
