(** ModelStream: src/peer/stream.rs over a socket with an arbitrary arrival schedule *)
From Verif Require Import Base.

(** First [n] / all but the first [n] elements, [n] a machine integer. *)
Definition takeN {A} (n : N) (l : list A) : list A :=
  if (lenN l <=? n)%N then l else firstn (N.to_nat n) l.
Definition dropN {A} (n : N) (l : list A) : list A :=
  if (lenN l <=? n)%N then [] else skipn (N.to_nat n) l.

(** What the environment does just before a read or peek: some bytes arrive (possibly none), the
    operation fails with an I/O error, or the remote end closes the connection. *)
Inductive tick := TData (chunk : bytes) | TErr | TClose.

(** A socket: bytes received by the kernel and not yet read, whether the remote end has closed,
    the future of the environment, the outcome of future writes (None, and the end of the list, mean
    success; [Some n] means failure after [n] bytes), and the log of bytes written. StreamInterface::Mocked is a socket with [st_closed := true] and no ticks (reads
    at the end return Ok(0)); StreamInterface::Nothing one that is empty as well. *)
Record stream := {
  st_avail : bytes;
  st_closed : bool;
  st_sched : list tick;
  st_wsched : list (option nat);
  st_sent : bytes
}.

(** The environment acts; true means the operation fails. *)
Definition env_step (s : stream) : bool * stream :=
  match st_sched s with
  | [] => (false, s)
  | t :: r =>
    match t with
    | TData c =>
      (false, {| st_avail := if st_closed s then st_avail s else st_avail s ++ c;
                 st_closed := st_closed s; st_sched := r; st_wsched := st_wsched s;
                 st_sent := st_sent s |})
    | TErr =>
      (true, {| st_avail := st_avail s; st_closed := st_closed s; st_sched := r;
                st_wsched := st_wsched s; st_sent := st_sent s |})
    | TClose =>
      (false, {| st_avail := st_avail s; st_closed := true; st_sched := r;
                 st_wsched := st_wsched s; st_sent := st_sent s |})
    end
  end.

Definition set_avail (s : stream) (a : bytes) : stream :=
  {| st_avail := a; st_closed := st_closed s; st_sched := st_sched s; st_wsched := st_wsched s;
     st_sent := st_sent s |}.

(** stream.rs 68-74: peek into a buffer of [n] bytes. [None] is an error (a read timeout, when
    nothing is available, included); [Some got] are the bytes obtained ([[]] at end of stream). *)
Definition peek (n : N) (s : stream) : option bytes * stream :=
  let (failed, s1) := env_step s in
  if failed then (None, s1)
  else match st_avail s1 with
       | [] => (if st_closed s1 then Some [] else None, s1)
       | _ => (Some (takeN n (st_avail s1)), s1)
       end.

(** stream.rs 20-28: read into a buffer of [n] bytes; like peek but consumes. *)
Definition read (n : N) (s : stream) : option bytes * stream :=
  let (failed, s1) := env_step s in
  if failed then (None, s1)
  else match st_avail s1 with
       | [] => (if st_closed s1 then Some [] else None, s1)
       | _ => (Some (takeN n (st_avail s1)), set_avail s1 (dropN n (st_avail s1)))
       end.

(** The content of a buffer holding [old] after [got] was written at its start. *)
Definition overlay (old got : bytes) : bytes := got ++ skipn (List.length got) old.

(** stream.rs 85-93: has_messages. *)
Definition has_messages (s : stream) : bool * stream :=
  let (r, s1) := peek 1 s in
  (match r with Some (_ :: _) => true | _ => false end, s1).

(** stream.rs 95-97: peek_and_read with a body buffer of [len] bytes; on success the buffer holds
    exactly the bytes read. *)
Definition peek_and_read (len : N) (s : stream) : option bytes * stream :=
  let (pk, s1) := peek len s in
  if (match pk with Some got => lenN got | None => 0%N end =? len)%N then
    let (rd, s2) := read len s1 in
    let got := match rd with Some got => got | None => [] end in
    if (lenN got =? len)%N then (Some got, s2) else (None, s2)
  else (None, s1).

(** stream.rs 139-144: the retry loop (the sleeps are part of the arrival schedule). *)
Fixpoint read_body (tries : nat) (len : N) (s : stream) : option bytes * stream :=
  match tries with
  | O => (None, s)
  | S t =>
    let (r, s1) := peek_and_read len s in
    match r with
    | Some body => (Some body, s1)
    | None => read_body t len s1
    end
  end.

(** stream.rs 120-145: length prefix, id, body; 1..40 makes 39 attempts. *)
Definition read_frame (s : stream) : option (bytes * N * N) * stream :=
  let (r, s1) := read 4 s in
  match r with
  | None => (None, s1)
  | Some got =>
    let length := from_be (overlay [0; 0; 0; 0]%N got) in
    let (r, s2) := read 1 s1 in
    match r with
    | None => (None, s2)
    | Some got1 =>
      let id := hd 0%N (overlay [0%N] got1) in
      if (length =? 0)%N then (Some ([], id, 0%N), s2)
      else
        let length := (length - 1)%N in
        let (r, s3) := read_body 39 length s2 in
        match r with
        | Some body => (Some (body, id, length), s3)
        | None => (None, s3)
        end
    end
  end.

(** stream.rs 100-146: read_stream. set_read_timeout (101-106) is assumed to succeed. The body
    allocation (138) of up to 4 GiB is assumed to succeed. *)
Definition read_stream (s : stream) : option (bytes * N * N) * stream :=
  let (some, s1) := has_messages s in
  if negb some then (None, s1)
  else
    let (r, s2) := peek 68 s1 in
    match r with
    | Some buffer =>
      if (lenN buffer =? 68)%N && (hd 0%N buffer =? 19)%N then
        let (r, s3) := read 68 s2 in
        match r with
        | None => (None, s3)
        | Some got => (Some (overlay buffer got, 19%N, 68%N), s3)
        end
      else read_frame s2
    | None => read_frame s2
    end.

(** write_all: succeeds and sends everything, or fails when some of the bytes have been sent. *)
Definition write_all (s : stream) (b : bytes) : bool * stream :=
  let put := {| st_avail := st_avail s; st_closed := st_closed s; st_sched := st_sched s;
                st_wsched := tl (st_wsched s); st_sent := st_sent s ++ b |} in
  match st_wsched s with
  | Some n :: r =>
    (false, {| st_avail := st_avail s; st_closed := st_closed s; st_sched := st_sched s;
               st_wsched := r; st_sent := st_sent s ++ firstn n b |})
  | _ => (true, put)
  end.

(** stream.rs 148-153: write_stream; errors are only logged. *)
Definition write_stream (s : stream) (b : bytes) : stream := snd (write_all s b).

(** stream.rs 156-162: the extension handshake. *)
Definition metadata_handshake_bytes : bytes :=
  be32 60 ++ [20%N] ++ [0%N]
  ++ s2b "d1:md11:ut_metadatai1e6:ut_pexi2ee13:metadata_sizei28282ee".

(** stream.rs 155-167: send_metadata_handshake_request; true means Ok. *)
Definition send_metadata_handshake_request (s : stream) : bool * stream :=
  write_all s metadata_handshake_bytes.
