(** ModelClock: src/peer/stream.rs once more, with a clock in milliseconds. What the other end does is a list of events with
    the moments at which they reach this machine; what each read or peek finds, and how long it takes, follows from
    it. The program's own computations take no time, and a timeout is as long as it says. *)
From Verif Require Import Base ModelStream.

(** A socket in time: the clock; what is still to come; what the operations so far have found (as in the schedule of
    ModelStream); the socket as of now, with an empty schedule. *)
Record clocked := {
  ck_now : N;
  ck_events : list (N * tick);
  ck_log : list tick;
  ck_stream : stream
}.

Definition with_sched (s : stream) (l : list tick) : stream :=
  {| st_avail := st_avail s; st_closed := st_closed s; st_sched := l; st_wsched := st_wsched s; st_sent := st_sent s |}.

(** All bytes that have come by [now], up to an error or the end, which only the next operation notices. *)
Fixpoint burst (now : N) (evs : list (N * tick)) : bytes * list (N * tick) :=
  match evs with
  | (t, TData d) :: r =>
    if (t <=? now)%N then let (d', r') := burst now r in (d ++ d', r') else ([], evs)
  | _ => ([], evs)
  end.
(** What an operation finds at [now]. *)
Definition due (now : N) (evs : list (N * tick)) : tick * list (N * tick) :=
  match evs with
  | (t, TErr) :: r => if (t <=? now)%N then (TErr, r) else (TData [], evs)
  | (t, TClose) :: r => if (t <=? now)%N then (TClose, r) else (TData [], evs)
  | _ => let (d, r) := burst now evs in (TData d, r)
  end.

(** stream.rs 101-103: the read timeout. *)
Definition READ_TIMEOUT : N := 100.

(** An operation returns at once if there is something to find, and otherwise waits for it, at most for the timeout. *)
Definition wait (c : clocked) : tick * clocked :=
  let at_time (now : N) :=
    let (k, r) := due now (ck_events c) in
    (k, {| ck_now := now; ck_events := r; ck_log := ck_log c ++ [k]; ck_stream := ck_stream c |}) in
  let something :=
    match st_avail (ck_stream c) with [] => st_closed (ck_stream c) | _ => true end in
  match ck_events c with
  | (t, _) :: _ =>
    if (t <=? ck_now c)%N || something then at_time (ck_now c)
    else if (t <=? ck_now c + READ_TIMEOUT)%N then at_time t
    else at_time (ck_now c + READ_TIMEOUT)%N
  | [] => if something then at_time (ck_now c) else at_time (ck_now c + READ_TIMEOUT)%N
  end.

Definition set_stream (c : clocked) (s : stream) : clocked :=
  {| ck_now := ck_now c; ck_events := ck_events c; ck_log := ck_log c; ck_stream := s |}.

(** stream.rs 68-74 and 20-28, as [peek] and [read] of ModelStream after waiting. *)
Definition peek_c (n : N) (c : clocked) : option bytes * clocked :=
  let (k, c1) := wait c in
  let (r, s) := peek n (with_sched (ck_stream c1) [k]) in (r, set_stream c1 s).
Definition read_c (n : N) (c : clocked) : option bytes * clocked :=
  let (k, c1) := wait c in
  let (r, s) := read n (with_sched (ck_stream c1) [k]) in (r, set_stream c1 s).

(** thread::sleep *)
Definition sleep (ms : N) (c : clocked) : clocked :=
  {| ck_now := ck_now c + ms; ck_events := ck_events c; ck_log := ck_log c; ck_stream := ck_stream c |}.

(** stream.rs 85-93 *)
Definition has_messages_c (c : clocked) : bool * clocked :=
  let (r, c1) := peek_c 1 c in
  (match r with Some (_ :: _) => true | _ => false end, c1).

(** stream.rs 95-97 *)
Definition peek_and_read_c (len : N) (c : clocked) : option bytes * clocked :=
  let (pk, c1) := peek_c len c in
  if (match pk with Some got => lenN got | None => 0%N end =? len)%N then
    let (rd, c2) := read_c len c1 in
    let got := match rd with Some got => got | None => [] end in
    if (lenN got =? len)%N then (Some got, c2) else (None, c2)
  else (None, c1).

(** stream.rs 139-144: [retry] counts from 1; the n-th attempt in vain is followed by a pause of 5n milliseconds. *)
Fixpoint read_body_c (tries : nat) (retry : N) (len : N) (c : clocked) : option bytes * clocked :=
  match tries with
  | O => (None, c)
  | S t =>
    let (r, c1) := peek_and_read_c len c in
    match r with
    | Some body => (Some body, c1)
    | None => read_body_c t (retry + 1) len (sleep (5 * retry) c1)
    end
  end.

(** stream.rs 120-145 *)
Definition read_frame_c (c : clocked) : option (bytes * N * N) * clocked :=
  let (r, c1) := read_c 4 c in
  match r with
  | None => (None, c1)
  | Some got =>
    let length := from_be (overlay [0; 0; 0; 0]%N got) in
    let (r, c2) := read_c 1 c1 in
    match r with
    | None => (None, c2)
    | Some got1 =>
      let id := hd 0%N (overlay [0%N] got1) in
      if (length =? 0)%N then (Some ([], id, 0%N), c2)
      else
        let length := (length - 1)%N in
        let (r, c3) := read_body_c 39 1 length c2 in
        match r with
        | Some body => (Some (body, id, length), c3)
        | None => (None, c3)
        end
    end
  end.

(** stream.rs 100-146 *)
Definition read_stream_c (c : clocked) : option (bytes * N * N) * clocked :=
  let (some, c1) := has_messages_c c in
  if negb some then (None, c1)
  else
    let (r, c2) := peek_c 68 c1 in
    match r with
    | Some buffer =>
      if (lenN buffer =? 68)%N && (hd 0%N buffer =? 19)%N then
        let (r, c3) := read_c 68 c2 in
        match r with
        | None => (None, c3)
        | Some got => (Some (overlay buffer got, 19%N, 68%N), c3)
        end
      else read_frame_c c2
    | None => read_frame_c c2
    end.

(** Several attempts to read, one after the other (peer/mod.rs 126-131 is called in a loop, with nothing between the
    calls that takes time but writes, which are taken to be quick). *)
Fixpoint listen (n : nat) (c : clocked) : list (option (bytes * N * N)) * clocked :=
  match n with
  | O => ([], c)
  | S m =>
    let (r, c1) := read_stream_c c in
    let (rs, c2) := listen m c1 in (r :: rs, c2)
  end.

(** The socket that a session of at most [n] attempts meets: its schedule is what its operations find. *)
Definition socket_of (n : nat) (c : clocked) : stream :=
  with_sched (ck_stream c) (ck_log (snd (listen n c))).
