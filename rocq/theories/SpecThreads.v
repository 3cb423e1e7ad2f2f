(** SpecThreads: executions of the threads of the program, and what it means that a thread stands still. *)
From Verif Require Import Base ModelTorrent ModelWriter ModelTracker ModelStream ModelPeer ModelActors ModelCache ModelMain ModelThreads
  SpecMain.

(** A shuffle only reorders. *)
Definition hop_ok (h : hop) : Prop :=
  match h with
  | HEnd _ _ _ shuffle => forall k l, Permutation.Permutation (shuffle k l) l
  | _ => True
  end.
(** The steps [hops] of the threads of a program with so many worker threads, started on the disk [d], lead to [s]. *)
Definition threaded (sha1 : bytes -> bytes) (p : profile) (cwd : loc) (workers : nat) (d : fs) (hops : list hop) (s : threads) : Prop :=
  Forall hop_ok hops /\ th_run sha1 p cwd workers (threads_init d) hops = Some s.

(** The same steps with the threads forgotten. *)
Definition pop_at (s : threads) (h : hop) : list pop :=
  match h with
  | HRequest _ raw full => [PAdd raw full]
  | HBegin _ _ _ _ => []
  | HPass _ _ => []
  | HEnd w accept fuel shuffle =>
    match th_held s w with
    | Some se => [PHandle (se_torrent se) (se_mail se) accept fuel (se_net se) (se_pid se) shuffle]
    | None => []
    end
  | HMain o | HOwn o => [o]
  end.
Fixpoint pops (sha1 : bytes -> bytes) (p : profile) (cwd : loc) (workers : nat) (s : threads) (hops : list hop) : list pop :=
  match hops with
  | [] => []
  | h :: t => pop_at s h ++ match th_step sha1 p cwd workers s h with
                            | Some s' => pops sha1 p cwd workers s' t
                            | None => []
                            end
  end.

(** Torrent [t] lives on worker [w]. *)
Definition lives_on (s : threads) (t w : nat) : Prop := nth_error (th_home s) t = Some w.

(** Between [s] and [s'] worker [w] has done nothing: its torrents know what they knew, have handled nothing and sent
    nothing; their mail has piled up; what was to be written before may have been written; nothing else is to be written; and
    no torrent was added to it. *)
Definition stood_still (w : nat) (s s' : threads) : Prop :=
  (forall t, lives_on s' t w <-> lives_on s t w) /\
  forall t x, lives_on s t w -> nth_error (pr_torrents (th_pr s)) t = Some x ->
    exists x', nth_error (pr_torrents (th_pr s')) t = Some x' /\
      sy_actor x' = sy_actor x /\ sy_trace x' = sy_trace x /\ sy_dead x' = sy_dead x /\
      (exists more, sy_mail x' = sy_mail x ++ more) /\ (exists done, sy_writer x = done ++ sy_writer x').

(** Worker [w] asks a peer for a description and never hears the end of it. *)
Definition lost (s : threads) (w : nat) : Prop :=
  exists se h ep, th_held s w = Some se /\ se_asks se = Some (h, ep) /\
    forall fuel, get_info fuel (se_net se) (se_pid se) h ep = OutOfFuel.

(** How many peers are left of the answer that job [j] of tracker [k] is going through. *)
Definition peers_left (s : process) (k j : nat) : nat :=
  match nth_error (pr_trackers s) k with
  | Some x => match nth_error (tk_jobs x) j with Some (Reporting _ rest) => List.length rest | _ => O end
  | None => O
  end.
(** The number of steps that are steps of the main thread. *)
Definition main_steps (hops : list hop) : nat :=
  List.length (filter (fun h => match h with HMain _ | HPass _ _ => true | _ => false end) hops).
(** Between [s] and [s'] torrent [t] has begun to download, and to write, nothing but what had been passed on to its threads. *)
Definition only_passed (s s' : threads) (t : nat) : Prop :=
  forall x, nth_error (pr_torrents (th_pr s)) t = Some x ->
  exists x', nth_error (pr_torrents (th_pr s')) t = Some x' /\
    (forall r, In r (sy_working x') -> In r (sy_working x) \/ In r (firstn (th_requests s t) (sy_queue x))) /\
    (exists n more, (n <= th_requests s t)%nat /\ sy_queue x' = skipn n (sy_queue x) ++ more) /\
    (exists n more, (n <= th_pieces s t)%nat /\ sy_writer x' = skipn n (sy_writer x) ++ more).
