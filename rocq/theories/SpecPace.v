(** SpecPace: executions with a clock, and what it means that things are done in time. *)
From Verif Require Import Base ModelTorrent ModelWriter ModelActors ModelMain SpecPieces SpecSystem SpecMain SpecForever.

(** [time n] is the time, in any unit, at which the [n]-th step is made; it never goes back. *)
Definition clock (time : nat -> N) : Prop := forall n, (time n <= time (S n))%N.

(** What is said of torrent number [t] holds at some moment not before step [n], and at most [bound] later. *)
Definition within (sha1 : bytes -> bytes) (p : profile) (cwd : loc) (d : fs) (ops : nat -> pop) (t : nat) (time : nat -> N)
  (n : nat) (bound : N) (P : sys -> Prop) : Prop :=
  exists m y, (n <= m)%nat /\ (time m <= time n + bound)%N /\ torrent_at sha1 p cwd d ops t m = Some y /\ P y.

(** Torrent number [t] is attended to: while a worker is free, each request is taken up after at most [start]; each download ends after
    at most [fetch]; each answer is handled after at most [note]; and the writer needs at most [store] for the piece whose turn it is. *)
Record prompt (sha1 : bytes -> bytes) (p : profile) (cwd : loc) (d : fs) (ops : nat -> pop) (t : nat) (time : nat -> N)
  (start fetch note store : N) : Prop := {
  pt_start : forall n x idx, torrent_at sha1 p cwd d ops t n = Some x -> In idx (map rq_idx (sy_queue x)) ->
    (List.length (sy_working x) < sy_workers x)%nat ->
    within sha1 p cwd d ops t time n start (fun y => ~ In idx (map rq_idx (sy_queue y)));
  pt_fetch : forall n x idx, torrent_at sha1 p cwd d ops t n = Some x -> In idx (map rq_idx (sy_working x)) ->
    within sha1 p cwd d ops t time n fetch (fun y => ~ In idx (map rq_idx (sy_working y)));
  pt_note : forall n x idx, torrent_at sha1 p cwd d ops t n = Some x -> In idx (flat_map answer_for (sy_mail x)) ->
    within sha1 p cwd d ops t time n note (fun y => ~ In idx (flat_map answer_for (sy_mail y)));
  pt_store : forall n x r rest, torrent_at sha1 p cwd d ops t n = Some x -> sy_writer x = r :: rest ->
    within sha1 p cwd d ops t time n store (fun y => ~ In (rd_idx r) (map rd_idx (sy_writer y)))
}.

(** The pieces that have been received: those of which the torrent will hear, and those that it has handed to the writer. *)
Definition received (x : sys) : list N :=
  flat_map (fun m => match m with PieceDownloadSuccessfull _ _ idx => [idx] | _ => [] end) (sy_mail x) ++ completed x.

(** No download takes less than [least]: a piece that is received had been begun, or received, [least] before. *)
Definition no_sooner (sha1 : bytes -> bytes) (p : profile) (cwd : loc) (d : fs) (ops : nat -> pop) (t : nat) (time : nat -> N) (least : N) : Prop :=
  forall n m x y idx, (n <= m)%nat -> torrent_at sha1 p cwd d ops t n = Some x -> torrent_at sha1 p cwd d ops t m = Some y ->
    ~ In idx (map rq_idx (sy_working x)) -> ~ In idx (received x) -> In idx (received y) -> (time n + least <= time m)%N.
