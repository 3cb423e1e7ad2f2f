(** ModelThreads: which thread runs what. ModelMain lets every part of the process take its turn at any moment; in the
    program the handlers share threads, and a handler that takes long keeps its thread from everything else.
    - main.rs 46-74: the main thread runs the trackers interface and the trackers (trackers_interface.rs 33-41 starts
      them where [TrackersInterfaceActor::new] runs).
    - main.rs 70-73: [HttpServer] answers requests on a number of worker threads (one for each processor unless told
      otherwise; here a parameter); a connection is handed to any of them.
    - main.rs 30: a torrent actor is started on the worker thread that answers the request, and stays there.
    - torrent.rs 30-31: each torrent has five threads for downloads and one for writing. What is sent to them ([do_send],
      torrent.rs 65, 77, 105, 144) does not reach them directly: [SyncArbiter::start] of crate actix puts a task on the thread of the
      system, which is the main thread (main.rs 46), and that task passes the messages on. *)
From Verif Require Import Base Utf8 ModelTorrent ModelWriter ModelTracker ModelStream ModelPeer ModelActors ModelCache ModelMain.

(** A handler of a torrent that a worker thread is executing: the torrent and its mail; the connection that it will get if
    it opens one; and, if it has to ask a peer for the description (torrent.rs 156-171), for which hash and whom. *)
Record session := {
  se_torrent : nat;
  se_mail : nat;
  se_net : option stream;
  se_pid : bytes;
  se_asks : option (bytes * bytes)
}.

Record threads := {
  th_pr : process;
  th_home : list nat;                 (* the worker thread of each torrent *)
  th_held : nat -> option session;    (* what each worker thread is executing *)
  th_main : option (nat * nat);       (* the tracker and the job whose peers the main thread is going through *)
  th_requests : nat -> nat;           (* how many of the requests in the queue of each torrent have been passed on *)
  th_pieces : nat -> nat              (* and how many of its pieces to be written *)
}.
Definition threads_init (d : fs) : threads :=
  {| th_pr := process_init d; th_home := []; th_held := fun _ => None; th_main := None;
     th_requests := fun _ => O; th_pieces := fun _ => O |}.

Inductive hop :=
| HRequest (w : nat) (raw : bytes) (full : bool)            (* worker [w] answers a request (main.rs 25-40) *)
| HBegin (t k : nat) (net : option stream) (pid : bytes)    (* the worker of torrent [t] turns to its mail [k] *)
| HEnd (w : nat) (accept fuel : nat)
       (shuffle : nat -> list apeer -> list apeer)          (* worker [w] gets to the end of the handler *)
| HMain (o : pop)                                           (* a step of the main thread *)
| HPass (t : nat) (pieces : bool)                           (* the main thread passes on what torrent [t] has sent to the
                                                               threads for downloads, or to the one for writing *)
| HOwn (o : pop).                                           (* a step of a thread for downloads or for writing *)

Definition idle (o : option session) : bool := match o with None => true | Some _ => false end.
Definition hold (held : nat -> option session) (w : nat) (se : option session) : nat -> option session :=
  fun v => if (v =? w)%nat then se else held v.

Definition set_count (f : nat -> nat) (t n : nat) : nat -> nat := fun u => if (u =? t)%nat then n else f u.
(** What torrent [t] has sent to its threads and they have not yet begun with. *)
Definition queued (s : process) (t : nat) : nat :=
  match nth_error (pr_torrents s) t with Some x => List.length (sy_queue x) | None => O end.
Definition unwritten (s : process) (t : nat) : nat :=
  match nth_error (pr_torrents s) t with Some x => List.length (sy_writer x) | None => O end.

(** Job [j] of tracker [k] is going through the peers of an answer. *)
Definition reporting (s : process) (k j : nat) : bool :=
  match nth_error (pr_trackers s) k with
  | Some x => match nth_error (tk_jobs x) j with Some (Reporting _ _) => true | _ => false end
  | None => false
  end.

(** torrent.rs 115-128, 156-163: the peer is asked if there is no description yet, neither here nor on the disk. *)
Definition asks (cwd : loc) (d : fs) (x : sys) (k : nat) : option (bytes * bytes) :=
  match nth_error (sy_mail x) k, ta_info (sy_actor x), walk_create d cwd [dot; downloads] with
  | Some (PeerFound ep), None, Some (d1, _) =>
    match from_file d1 (cache_loc cwd (ta_info_hash (sy_actor x))) with
    | Ret (Err _) => Some (ta_info_hash (sy_actor x), ep)
    | _ => None
    end
  | _, _, _ => None
  end.

(** The peer has been asked, and [fuel] rounds are enough for that. *)
Definition answered (fuel : nat) (se : session) : bool :=
  match se_asks se with
  | None => true
  | Some (h, ep) => match get_info fuel (se_net se) (se_pid se) h ep with OutOfFuel => false | _ => true end
  end.

Section Threads.
  Variable sha1 : bytes -> bytes.
  Variable p : profile.
  Variable cwd : loc.
  Variable workers : nat.

  Definition step_pr (s : threads) (o : pop) : process := pr_step sha1 p cwd (th_pr s) o.

  (** [None]: the thread in question is busy, or there is nothing of that kind to do. Simplified: what a handler does to
      the disk and to the torrent happens when it ends. *)
  Definition th_step (s : threads) (h : hop) : option threads :=
    match h with
    | HRequest w raw full =>
      if (w <? workers)%nat && idle (th_held s w) then
        let r := step_pr s (PAdd raw full) in
        Some {| th_pr := r;
                th_home := th_home s ++ repeat w (List.length (pr_torrents r) - List.length (pr_torrents (th_pr s)));
                th_held := th_held s; th_main := th_main s;
                th_requests := th_requests s; th_pieces := th_pieces s |}
      else None
    | HBegin t k net pid =>
      match nth_error (th_home s) t, nth_error (pr_torrents (th_pr s)) t with
      | Some w, Some x =>
        if idle (th_held s w) && negb (sy_dead x) && (k <? List.length (sy_mail x))%nat then
          Some {| th_pr := th_pr s; th_home := th_home s;
                  th_held := hold (th_held s) w (Some {| se_torrent := t; se_mail := k; se_net := net; se_pid := pid;
                                                         se_asks := asks cwd (pr_disk (th_pr s)) x k |});
                  th_main := th_main s; th_requests := th_requests s; th_pieces := th_pieces s |}
        else None
      | _, _ => None
      end
    | HEnd w accept fuel shuffle =>
      match th_held s w with
      | Some se =>
        if answered fuel se then
          Some {| th_pr := step_pr s (PHandle (se_torrent se) (se_mail se) accept fuel (se_net se) (se_pid se) shuffle);
                  th_home := th_home s; th_held := hold (th_held s) w None; th_main := th_main s;
                  th_requests := th_requests s; th_pieces := th_pieces s |}
        else None
      | None => None
      end
    | HMain o =>
      (** tracker.rs 31-38: between an answer and the end of the loop over its peers there is no [await] *)
      let next (k j : nat) := if reporting (step_pr s o) k j then Some (k, j) else None in
      let go (m : option (nat * nat)) :=
        Some {| th_pr := step_pr s o; th_home := th_home s; th_held := th_held s; th_main := m;
                th_requests := th_requests s; th_pieces := th_pieces s |} in
      match o, th_main s with
      | PInterface _, None => go None
      | PTake _, None => go None
      | PLookup k j _, None => go (next k j)
      | PReport k j _, Some (k', j') => if (k =? k')%nat && (j =? j')%nat then go (next k j) else None
      | _, _ => None
      end
    | HPass t pieces =>
      match th_main s with
      | None =>
        Some {| th_pr := th_pr s; th_home := th_home s; th_held := th_held s; th_main := None;
                th_requests := if pieces then th_requests s else set_count (th_requests s) t (queued (th_pr s) t);
                th_pieces := if pieces then set_count (th_pieces s) t (unwritten (th_pr s) t) else th_pieces s |}
      | Some _ => None
      end
    | HOwn o =>
      let go (r w : nat -> nat) :=
        Some {| th_pr := step_pr s o; th_home := th_home s; th_held := th_held s; th_main := th_main s;
                th_requests := r; th_pieces := w |} in
      match o with
      | PStart t =>
        (** a thread takes the next of the requests that have been passed on, if one is free *)
        if (0 <? th_requests s t)%nat then
          go (set_count (th_requests s) t (th_requests s t - (queued (th_pr s) t - queued (step_pr s o) t))%nat) (th_pieces s)
        else None
      | PFinish _ _ _ _ _ => go (th_requests s) (th_pieces s)
      | PWrite t =>
        if (0 <? th_pieces s t)%nat then
          go (th_requests s) (set_count (th_pieces s) t (th_pieces s t - (unwritten (th_pr s) t - unwritten (step_pr s o) t))%nat)
        else None
      | _ => None
      end
    end.

  Fixpoint th_run (s : threads) (hops : list hop) : option threads :=
    match hops with
    | [] => Some s
    | h :: t => match th_step s h with Some s' => th_run s' t | None => None end
    end.
End Threads.
