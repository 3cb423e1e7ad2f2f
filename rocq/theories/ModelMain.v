(** ModelMain: src/main.rs and src/actors/{trackers_interface,tracker}.rs: the whole process *)
From Verif Require Import Base Utf8 ModelBencode ModelMessages ModelTorrent ModelWriter ModelTracker ModelStream
  ModelPeer ModelActors ModelCache.

(** ** messages.rs 10-17: TorrentRegistered. The address of a torrent actor is its number. *)
Record registration := { rg_hash : bytes; rg_torrent : nat }.

(** ** trackers_interface.rs 12-31: the trackers. None of these URLs has a default port in crate url. *)
Definition udp_url (host : bytes) (port : N) : url :=
  {| u_scheme := s2b "udp"; u_host := Some host; u_port := Some port;
     u_text := s2b "udp://" ++ host ++ s2b ":" ++ dec port ++ s2b "/announce" |}.
Definition tracker_urls : list url :=
  [ udp_url (s2b "93.158.213.92") 1337; udp_url (s2b "102.223.180.235") 6969;
    udp_url (s2b "23.134.88.6") 1337; udp_url (s2b "193.189.100.187") 6969;
    udp_url (s2b "185.243.218.213") 80; udp_url (s2b "91.216.110.52") 451;
    udp_url (s2b "208.83.20.20") 6969; udp_url (s2b "23.157.120.14") 6969;
    udp_url (s2b "156.234.201.18") 80; udp_url (s2b "185.102.219.163") 6969;
    udp_url (s2b "185.50.159.149") 6969; udp_url (s2b "209.141.59.16") 6969;
    udp_url (s2b "38.7.201.142") 6969; udp_url (s2b "73.170.204.100") 6969;
    udp_url (s2b "176.31.250.174") 6969; udp_url (s2b "82.156.24.219") 6969;
    udp_url (s2b "83.102.180.21") 80; udp_url (s2b "185.230.4.150") 1337 ].

(** ** tracker.rs *)

(** A running future of a tracker actor (tracker.rs 30-40): waiting for the answer of the tracker,
    or sending the peers that are left. *)
Inductive job := Asking (r : registration) | Reporting (r : registration) (rest : list peer_endpoint).

(** tracker.rs 11-13, with its mailbox and its running futures. *)
Record tracker_actor := {
  tk_url : url;
  tk_alive : bool;
  tk_mail : list registration;
  tk_jobs : list job
}.
Definition tracker_new (u : url) : tracker_actor :=
  {| tk_url := u; tk_alive := true; tk_mail := []; tk_jobs := [] |}.
(** A panic inside one of the futures unwinds through the task that runs the actor: the actor, its
    mailbox and its other futures are gone. *)
Definition tracker_die (k : tracker_actor) : tracker_actor :=
  {| tk_url := tk_url k; tk_alive := false; tk_mail := []; tk_jobs := [] |}.
Definition tracker_push (k : tracker_actor) (r : registration) : tracker_actor :=
  {| tk_url := tk_url k; tk_alive := tk_alive k; tk_mail := tk_mail k ++ [r]; tk_jobs := tk_jobs k |}.
Definition set_jobs (k : tracker_actor) (l : list job) : tracker_actor :=
  {| tk_url := tk_url k; tk_alive := tk_alive k; tk_mail := tk_mail k; tk_jobs := l |}.

Fixpoint update_nth {A} (k : nat) (f : A -> A) (l : list A) : list A :=
  match k, l with
  | _, [] => []
  | O, x :: t => f x :: t
  | S k', x :: t => x :: update_nth k' f t
  end.

(** What the network does during one lookup (mod.rs 27-44), and the generated peer id. *)
Record lookup_env := {
  le_get : bytes -> http;
  le_bound : bool;
  le_connected : bool;
  le_socket : udp_socket;
  le_pid : bytes
}.
Definition lookup (e : lookup_env) (u : url) (info_hash : bytes)
  : outcome (result (list peer_endpoint) tracker_error) :=
  get_peers_by_tracker (le_get e) (le_bound e) (le_connected e) (le_socket e) (le_pid e) u info_hash.

(** ** The process: torrents, trackers, the mailbox of the trackers interface, one disk. *)
Record process := {
  pr_torrents : list sys;
  pr_interface : list registration;
  pr_trackers : list tracker_actor;
  pr_disk : fs
}.

(** main.rs 46-74, trackers_interface.rs 11-44. The log file is in ModelLog. *)
Definition process_init (d : fs) : process :=
  {| pr_torrents := []; pr_interface := []; pr_trackers := map tracker_new tracker_urls; pr_disk := d |}.

(** ** main.rs 25-40: POST /add/magnet *)

(** The answer to a request: status and body, or nothing because the handler panicked. *)
Inductive http_answer := Answer (status : N) (body : bytes) | NoAnswer.

(** The body extractor [String] of actix-web: at most 256 KiB, UTF-8 (other bodies get an error
    whose text is not modelled). Then parse and [unwrap] (27), start the actor (30), tell the
    trackers interface (37; [full] says that its mailbox takes no more), answer (39). *)
Definition add_magnet (p : profile) (full : bool) (raw : bytes) (s : process) : http_answer * process :=
  if (262144 <? lenN raw)%N then (Answer 413 [], s)
  else if negb (utf8_valid raw) then (Answer 400 [], s)
  else match parse_magnet p raw with
  | Ret (Ok h) =>
    let t := List.length (pr_torrents s) in
    (Answer 200 (s2b "Test"),
     {| pr_torrents := pr_torrents s ++ [sys_init h (pr_disk s)];
        pr_interface := if full then pr_interface s
                        else pr_interface s ++ [{| rg_hash := h; rg_torrent := t |}];
        pr_trackers := pr_trackers s; pr_disk := pr_disk s |})
  | _ => (NoAnswer, s)
  end.

(** ** Scheduler choices and environment inputs *)
Inductive pop :=
| PAdd (raw : bytes) (full : bool)                  (* a request *)
| PInterface (full : nat -> bool)                   (* the interface handles its next message *)
| PTake (k : nat)                                   (* tracker k handles its next message *)
| PLookup (k j : nat) (e : lookup_env)              (* the lookup of job j of tracker k ends *)
| PReport (k j : nat) (connects : N * N * N * N * N -> bool) (* job j deals with its next peer *)
| PHandle (t k : nat) (accept fuel : nat) (net : option stream) (pid : bytes)
          (shuffle : nat -> list apeer -> list apeer)        (* torrent t handles mail k *)
| PStart (t : nat)                                  (* a free worker of torrent t takes a request *)
| PFinish (t i : nat) (net : option stream) (pid : bytes) (fuel : nat) (* worker i of torrent t *)
| PWrite (t : nat).                                 (* the writer of torrent t *)

Definition set_disk (d : fs) (s : sys) : sys :=
  {| sy_actor := sy_actor s; sy_dead := sy_dead s; sy_mail := sy_mail s; sy_queue := sy_queue s;
     sy_working := sy_working s; sy_workers := sy_workers s; sy_writer := sy_writer s;
     sy_writer_dead := sy_writer_dead s; sy_disk := d; sy_trace := sy_trace s |}.

(** trackers_interface.rs 59-61: every tracker that lives and whose mailbox takes it gets a copy. *)
Definition forward (full : nat -> bool) (r : registration) (k : nat) (x : tracker_actor) : tracker_actor :=
  if tk_alive x && negb (full k) then tracker_push x r else x.
Fixpoint forward_all (full : nat -> bool) (r : registration) (k : nat) (l : list tracker_actor)
  : list tracker_actor :=
  match l with
  | [] => []
  | x :: t => forward full r k x :: forward_all full r (S k) t
  end.

(** What collect_info leaves on the disk when it panics or does not return: the directory. *)
Definition downloads_made (cwd : loc) (d : fs) : fs :=
  match walk_create d cwd [dot; downloads] with Some (d1, _) => d1 | None => d end.

Section Process.
  Variable sha1 : bytes -> bytes.
  Variable p : profile.
  Variable cwd : loc.

  (** One step of torrent [t] on the common disk. *)
  Definition torrent_step (s : process) (t : nat) (o : op) : process :=
    match nth_error (pr_torrents s) t with
    | None => s
    | Some x =>
      let x' := sys_step sha1 p cwd (set_disk (pr_disk s) x) o in
      {| pr_torrents := update_nth t (fun _ => x') (pr_torrents s); pr_interface := pr_interface s;
         pr_trackers := pr_trackers s; pr_disk := sy_disk x' |}
    end.

  Definition with_trackers (s : process) (l : list tracker_actor) : process :=
    {| pr_torrents := pr_torrents s; pr_interface := pr_interface s; pr_trackers := l; pr_disk := pr_disk s |}.
  Definition with_disk (s : process) (d : fs) : process :=
    {| pr_torrents := pr_torrents s; pr_interface := pr_interface s; pr_trackers := pr_trackers s; pr_disk := d |}.

  Definition pr_step (s : process) (o : pop) : process :=
    match o with
    | PAdd raw full => snd (add_magnet p full raw s)
    | PInterface full =>
      match pr_interface s with
      | [] => s
      | r :: rest =>
        {| pr_torrents := pr_torrents s; pr_interface := rest;
           pr_trackers := forward_all full r 0 (pr_trackers s); pr_disk := pr_disk s |}
      end
    | PTake k =>
      (** tracker.rs 27-45 *)
      with_trackers s (update_nth k (fun x =>
        match tk_mail x with
        | [] => x
        | r :: rest => {| tk_url := tk_url x; tk_alive := tk_alive x; tk_mail := rest;
                          tk_jobs := tk_jobs x ++ [Asking r] |}
        end) (pr_trackers s))
    | PLookup k j e =>
      (** tracker.rs 31-33 *)
      with_trackers s (update_nth k (fun x =>
        match nth_error (tk_jobs x) j with
        | Some (Asking r) =>
          match lookup e (tk_url x) (rg_hash r) with
          | Ret (Ok peers) => set_jobs x (update_nth j (fun _ => Reporting r peers) (tk_jobs x))
          | Ret (Err _) => set_jobs x (remove_nth j (tk_jobs x))
          | Panic => tracker_die x
          | OutOfFuel => x
          end
        | _ => x
        end) (pr_trackers s))
    | PReport k j connects =>
      (** tracker.rs 34-38: the next peer, or the end of the loop *)
      match nth_error (pr_trackers s) k with
      | None => s
      | Some x =>
        match nth_error (tk_jobs x) j with
        | Some (Reporting r []) =>
          with_trackers s (update_nth k (fun x => set_jobs x (remove_nth j (tk_jobs x))) (pr_trackers s))
        | Some (Reporting r (e :: rest)) =>
          let s' := with_trackers s (update_nth k (fun x =>
                      set_jobs x (update_nth j (fun _ => Reporting r rest) (tk_jobs x))) (pr_trackers s)) in
          if is_reachable connects (endpoint e) then torrent_step s' (rg_torrent r) (OPeer (endpoint e))
          else s'
        | _ => s
        end
      end
    | PHandle t k accept fuel net pid shuffle =>
      match nth_error (pr_torrents s) t with
      | None => s
      | Some x =>
        match nth_error (sy_mail x) k, ta_info (sy_actor x), sy_dead x with
        | Some (PeerFound ep), None, false =>
          match collect_info accept fuel cwd (pr_disk s) net pid (ta_info_hash (sy_actor x)) ep with
          | Ret (found, d) => torrent_step (with_disk s d) t (OHandle k (Ret found) shuffle)
          | Panic => torrent_step (with_disk s (downloads_made cwd (pr_disk s))) t (OHandle k Panic shuffle)
          | OutOfFuel => with_disk s (downloads_made cwd (pr_disk s))
          end
        | _, _, _ => torrent_step s t (OHandle k (Ret None) shuffle)
        end
      end
    | PStart t => torrent_step s t OStart
    | PFinish t i net pid fuel => torrent_step s t (OFinish i net pid fuel)
    | PWrite t => torrent_step s t OWrite
    end.

  Definition pr_run (s : process) (ops : list pop) : process := fold_left pr_step ops s.
End Process.

(** Admissible inputs: a shuffle only reorders. *)
Definition pop_ok (o : pop) : Prop :=
  match o with
  | PHandle _ _ _ _ _ _ shuffle => forall k l, Permutation.Permutation (shuffle k l) l
  | _ => True
  end.
