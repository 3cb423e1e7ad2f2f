(** SpecNear: a peer that is near and keeps talking, without helpers of the model. *)
From Verif Require Import Base ModelBencode ModelMessages ModelStream ModelPeer ModelClock
  SpecBencode SpecMessages SpecStream SpecPeer SpecSession SpecVerdict SpecClock.

(** Messages with the moments at which they arrive, each as a whole; several may arrive at the same moment. *)
Definition stamped := list (N * raw).
Definition arriving (l : stamped) : list (N * tick) := map (fun e => (fst e, TData (frame (fst (snd e)) (snd (snd e))))) l.

(** After the moment [t], no more than [gap] milliseconds pass without a message, until the last one. *)
Inductive steady (gap : N) : N -> stamped -> Prop :=
| sd_nil t : steady gap t []
| sd_cons t t' m l : (t <= t' <= t + gap)%N -> steady gap t' l -> steady gap t ((t', m) :: l).
(** The moment of the last message. *)
Fixpoint last_time (t : N) (l : stamped) : N := match l with [] => t | (t', _) :: r => last_time t' r end.

(** The messages as attempts that bring them. *)
Definition told (l : stamped) : list heard := map (fun e => Some (snd e)) l.

(** A peer at some distance: its handshake [h] for the torrent [ih] arrives at [t0], within a tenth of a second; its messages follow
    each other within a second; with the first of them, [opening], it unchokes us and states the size of the metadata, soon: every
    message, and every tenth of a second, counts as one of ten. It does not choke us, and every message can be read. *)
Record near (ih : bytes) (size : N -> hmap N -> Prop) (now t0 : N) (h : bytes) (opening rest : stamped) : Prop := {
  nr_soon : (now < t0 <= now + 100)%N;
  nr_handshake : List.length h = 68%nat /\ hd 0%N h = 19%N /\ firstn 20 (skipn 28 h) = ih;
  nr_steady : steady 1000 t0 (opening ++ rest);
  nr_opening : (List.length opening + N.to_nat ((last_time t0 opening - t0) / 100) <= 10)%nat;
  nr_unchokes : exists t body, In (t, (1%N, body)) opening;
  nr_states : exists t r m n e, In (t, r) opening /\ parsed r m /\ states_size m = Some (n, e);
  nr_behaves : forall t r, In (t, r) (opening ++ rest) -> well_behaved size r;
  nr_small : forall t r, In (t, r) (opening ++ rest) -> (fst r < 256)%N /\ (N.of_nat (List.length (snd r)) + 1 < 2 ^ 24)%N
}.
(** Everything that arrives. *)
Definition from_near (t0 : N) (h : bytes) (l : stamped) : list (N * tick) := (t0, TData h) :: arriving l.
