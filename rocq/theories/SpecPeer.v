(** SpecPeer: histories of messages and downloads, without helpers of the model. *)
From Verif Require Import Base ModelBencode ModelMessages ModelStream ModelPeer SpecBencode SpecMessages.

(** A received message: its id and body. *)
Definition raw := (N * bytes)%type.
Definition parsed (r : raw) (m : message) : Prop := exists len, new_raw (snd r) len (fst r) = Ret (Ok m).

(** The last element with some property. *)
Definition last_of {A} (f : A -> bool) (l : list A) : option A := find f (rev l).

Definition choke_or_unchoke (r : raw) : bool := (fst r =? 0)%N || (fst r =? 1)%N.
Definition bitfield_id (r : raw) : bool := (fst r =? 5)%N.
Definition handshake_id (r : raw) : bool := (fst r =? 19)%N.
(** An extension handshake: an extension message that states a metadata size. *)
Definition states_size (m : message) : option (N * hmap N) :=
  match msg_content m with
  | CExtension e => match ex_get_metadata_size e with
                    | Some n => Some (n, ex_get_extensions e)
                    | None => None
                    end
  | _ => None
  end.

(** Bit [k] of a bitfield body. *)
Definition bit (body : bytes) (k : nat) : option bool :=
  option_map (fun b => N.testbit b (N.of_nat (7 - k mod 8))) (nth_error body (k / 8)).

(** Reading: what the remote end delivers in successive attempts, with the resulting peer state. *)
Inductive receives : peer -> list (option message) -> peer -> Prop :=
| rec_nothing : forall x, receives x [] x
| rec_message : forall x m x1 ms y,
    read_message x = Ret (Some m, x1) -> receives (apply_message x1 m) ms y -> receives x (Some m :: ms) y
| rec_silence : forall x x1 ms y,
    read_message x = Ret (None, x1) -> receives x1 ms y -> receives x (None :: ms) y.

Definition somes {A} (l : list (option A)) : list A := flat_map (fun o => match o with Some a => [a] | None => [] end) l.

(** A download as a history: a message was read, nothing was read, block [n] was asked for. *)
Inductive event := Got (m : message) | Silence | Asked (n : N).
Inductive exchange (ask : peer -> N -> outcome peer) : peer -> list event -> peer -> Prop :=
| ex_nothing : forall x, exchange ask x [] x
| ex_got : forall x m x1 es y,
    read_message x = Ret (Some m, x1) -> exchange ask (apply_message x1 m) es y -> exchange ask x (Got m :: es) y
| ex_silence : forall x x1 es y,
    read_message x = Ret (None, x1) -> exchange ask x1 es y -> exchange ask x (Silence :: es) y
| ex_asked : forall x n x1 es y,
    ask x n = Ret x1 -> exchange ask x1 es y -> exchange ask x (Asked n :: es) y.

Definition wanted (accept : message -> bool) (es : list event) : list message :=
  flat_map (fun e => match e with Got m => if accept m then [m] else [] | _ => [] end) es.
Definition asked (es : list event) : list N := flat_map (fun e => match e with Asked n => [n] | _ => [] end) es.
(** The attempts to read: whether a message came. *)
Definition attempts (es : list event) : list bool :=
  flat_map (fun e => match e with Got _ => [true] | Silence => [false] | Asked _ => [] end) es.
Definition is_read (e : event) : Prop := match e with Asked _ => False | _ => True end.

Definition countN {A} (l : list A) : N := N.of_nat (List.length l).

(** The peer after some bytes were sent to it. *)
Definition after_sending (x : peer) (b : bytes) : peer :=
  with_stream x {| st_avail := st_avail (p_stream x); st_closed := st_closed (p_stream x); st_sched := st_sched (p_stream x);
                   st_wsched := st_wsched (p_stream x); st_sent := st_sent (p_stream x) ++ b |}.
(** The remote end has unchoked us and stated a metadata size. *)
Definition ready (x : peer) : Prop := p_choked x = false /\ p_metadata_size x <> 0%N.

(** How a block of a piece, and a block of the metadata, is asked for. *)
Definition ask_block (i total plen : N) (x : peer) (b : N) : outcome peer :=
  Ret (after_sending x (frame 6 (big_endian 4 i ++ big_endian 4 (b * 16384) ++
                                 big_endian 4 (N.min (total - i * plen - b * 16384) 16384)))).
Definition ask_metadata (x : peer) (b : N) : outcome peer :=
  match hm_get (p_extensions x) (s2b "ut_metadata") with
  | Some id => Ret (after_sending x (frame 20 (id :: benc (metadata_request b))))
  | None => Panic
  end.

(** Asking in step with receiving: a block is asked for when as many blocks as its number have been
    received, only if it exists, and at most that many blocks were asked for before. *)
Definition in_step (accept : message -> bool) (count : N) (es : list event) : Prop :=
  forall a n c, es = a ++ Asked n :: c ->
    n = countN (wanted accept a) /\ (n < count)%N /\ (countN (asked a) <= n)%N.
(** The first thing read is not a block. *)
Definition starts_without (accept : message -> bool) (es : list event) : Prop := wanted accept (firstn 1 es) = [].
(** Never more than 11 silent attempts in a row, 10 after a message. *)
Definition patient (es : list event) : Prop :=
  (forall k c, attempts es = repeat false k ++ c -> (k <= 11)%nat) /\
  (forall a k c, attempts es = a ++ true :: repeat false k ++ c -> (k <= 10)%nat).
(** Silence long enough to give up. *)
Definition gave_up (es : list event) : Prop :=
  attempts es = repeat false 11 \/ exists a, attempts es = a ++ true :: repeat false 10.
(** After every read but the last the remote end had not choked us. *)
Definition unchoked_until_end (ask : peer -> N -> outcome peer) (x : peer) (es : list event) : Prop :=
  forall a e c z, es = a ++ e :: c -> c <> [] -> is_read e -> exchange ask x (a ++ [e]) z -> p_choked z = false.

(** What a download of [cap] blocks from [x] with result [r] is: messages and requests in [es], ending in [y]. *)
Definition history (filter : message -> bool) (ask : peer -> N -> outcome peer) (cap : N) (x : peer)
  (r : result bytes download_error) (y : peer) (es : list event) : Prop :=
  exchange ask x es y /\ in_step filter cap es /\
  (starts_without filter es -> asked es = map N.of_nat (seq 0 (List.length (asked es))) /\
     (forall d, r = Ok d -> countN (asked es) = cap)) /\
  (forall d, r = Ok d -> d = flat_map get_content_data (wanted filter es) /\ countN (wanted filter es) = cap /\
     exists a m, es = a ++ [Got m] /\ filter m = true) /\
  (forall e, r = Err e -> (countN (wanted filter es) < cap)%N) /\
  patient es /\ unchoked_until_end ask x es /\
  (r = Err ChokedPeer -> p_choked y = true /\ exists a e, es = a ++ [e] /\ is_read e) /\
  (r = Err Idle -> gave_up es /\
     exists a e z, (es = a ++ [e] \/ exists n, es = a ++ [e; Asked n]) /\ is_read e /\ exchange ask x (a ++ [e]) z /\ p_choked z = false).

(** Messages that abort the worker, and messages on which it hangs. *)
Definition unreadable (body : bytes) (id : N) : Prop :=
  ((id = 6 \/ id = 7)%N /\ (List.length body < 8)%nat) \/ (id = 19%N /\ (List.length body < 68)%nat) \/
  (id = 20%N /\ (body = [] \/ decode (tl body) = Panic)).
Definition endless (body : bytes) (id : N) : Prop := id = 20%N /\ body <> [] /\ decode (tl body) = OutOfFuel.
