(** ModelMemory: src/peer/stream.rs once more, with the memory that is reserved for the body of a message (138). *)
From Verif Require Import Base ModelStream.

(** stream.rs 120-145: [read_frame] of ModelStream, and how many bytes are reserved (138) before the body is looked for. *)
Definition read_frame_m (s : stream) : option (bytes * N * N) * stream * N :=
  let (r, s1) := read 4 s in
  match r with
  | None => (None, s1, 0%N)
  | Some got =>
    let length := from_be (overlay [0; 0; 0; 0]%N got) in
    let (r, s2) := read 1 s1 in
    match r with
    | None => (None, s2, 0%N)
    | Some got1 =>
      let id := hd 0%N (overlay [0%N] got1) in
      if (length =? 0)%N then (Some ([], id, 0%N), s2, 0%N)
      else
        let length := (length - 1)%N in
        let (r, s3) := read_body 39 length s2 in
        match r with
        | Some body => (Some (body, id, length), s3, length)
        | None => (None, s3, length)
        end
    end
  end.

(** stream.rs 100-146: [read_stream]; the buffers of 1, 4 and 68 bytes are on the stack, and the copy of a handshake (117) has 68 bytes. *)
Definition read_stream_m (s : stream) : option (bytes * N * N) * stream * N :=
  let (some, s1) := has_messages s in
  if negb some then (None, s1, 0%N)
  else
    let (r, s2) := peek 68 s1 in
    match r with
    | Some buffer =>
      if (lenN buffer =? 68)%N && (hd 0%N buffer =? 19)%N then
        let (r, s3) := read 68 s2 in
        match r with
        | None => (None, s3, 0%N)
        | Some got => (Some (overlay buffer got, 19%N, 68%N), s3, 68%N)
        end
      else read_frame_m s2
    | None => read_frame_m s2
    end.

(** Several attempts, one after the other: what they bring, and what they reserve. *)
Fixpoint read_messages_m (n : nat) (s : stream) : list (option (bytes * N * N) * N) :=
  match n with
  | O => []
  | S m => let '(r, s1, k) := read_stream_m s in (r, k) :: read_messages_m m s1
  end.
