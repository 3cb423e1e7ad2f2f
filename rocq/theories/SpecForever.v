(** SpecForever: executions that go on forever. *)
From Verif Require Import Base ModelTorrent ModelWriter ModelTracker ModelActors ModelCache ModelMain
  SpecTorrent SpecWriter SpecPieces SpecSystem SpecMain SpecWhole.

(** The state after the first [n] steps of an execution that never ends. *)
Definition state_at (sha1 : bytes -> bytes) (p : profile) (cwd : loc) (d : fs) (ops : nat -> pop) (n : nat) : process :=
  pr_run sha1 p cwd (process_init d) (map ops (seq 0 n)).
(** Torrent number [t] after the first [n] steps. *)
Definition torrent_at (sha1 : bytes -> bytes) (p : profile) (cwd : loc) (d : fs) (ops : nat -> pop) (t n : nat) : option sys :=
  nth_error (pr_torrents (state_at sha1 p cwd d ops n)) t.

(** What a torrent has to do: messages, requests, downloads that are running, pieces to write. *)
Definition agenda (x : sys) : list tmsg * list piece_requested * list piece_requested * list piece_ready :=
  (sy_mail x, sy_queue x, sy_working x, sy_writer x).
(** Torrent number [t] never stops with something left to do: its agenda is empty or changes later. *)
Definition never_stuck (sha1 : bytes -> bytes) (p : profile) (cwd : loc) (d : fs) (ops : nat -> pop) (t : nat) : Prop :=
  forall n x, torrent_at sha1 p cwd d ops t n = Some x -> at_rest x \/
    exists m y z, (n <= m)%nat /\ torrent_at sha1 p cwd d ops t m = Some y /\ torrent_at sha1 p cwd d ops t (S m) = Some z /\
      agenda z <> agenda y.

(** How many downloads of a torrent have failed so far. *)
Definition failed_so_far (x : sys) : N :=
  lenN (filter (fun m => match m with PieceDownloadFailed _ _ => true | _ => false end) (handled (sy_trace x) ++ sy_mail x)).
