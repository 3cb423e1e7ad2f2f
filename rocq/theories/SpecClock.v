(** SpecClock: connections in time, without helpers of the model beside the attempts to read themselves. *)
From Verif Require Import Base ModelStream ModelClock SpecMessages SpecStream SpecPeer SpecVerdict.

(** A connection that has just been opened at the moment [now]: nothing has come, nothing was read. [evs] reaches this
    machine at the moments given; [ws] is the fate of the writes. *)
Definition opened_at (now : N) (evs : list (N * tick)) (ws : list (option nat)) : clocked :=
  {| ck_now := now; ck_events := evs; ck_log := [];
     ck_stream := {| st_avail := []; st_closed := false; st_sched := []; st_wsched := ws; st_sent := [] |} |}.

(** All bytes the other end sends. *)
Definition sent_bytes (evs : list (N * tick)) : bytes :=
  flat_map (fun e => match snd e with TData d => d | _ => [] end) evs.

(** What an attempt brings, as in SpecVerdict. *)
Definition brings (v : option (bytes * N * N)) : heard := option_map (fun v => match v with (body, id, _) => (id, body) end) v.
(** The first [k] attempts; the moment at which the last of them is over. *)
Definition attempts (k : nat) (c : clocked) : list heard := map brings (fst (listen k c)).
Definition over_at (k : nat) (c : clocked) : N := ck_now (snd (listen k c)).

(** Nothing is waiting to be read, and nothing happens for the next [ms] milliseconds. *)
Definition quiet_for (ms : N) (c : clocked) : Prop :=
  st_avail (ck_stream c) = [] /\ st_closed (ck_stream c) = false /\
  Forall (fun e => (ck_now c + ms < fst e)%N) (ck_events c).

(** The messages among some attempts. *)
Definition messages (c : list heard) : nat := List.length (somes c).
