(** ModelActors: src/actors/{torrent,connection,writer,messages}.rs as a transition system *)
From Coq Require Import Permutation.
From Verif Require Import Base Utf8 ModelBencode ModelMessages ModelTorrent ModelTracker ModelStream
  ModelPeer ModelWriter.

(** ** torrent.rs: the peers known to the torrent actor *)

(** torrent.rs 173-178: struct Peer. *)
Record apeer := { ap_endpoint : bytes; ap_downloaded : N; ap_failed : N }.
(** torrent.rs 181-187 *)
Definition apeer_new (ep : bytes) : apeer :=
  {| ap_endpoint := ep; ap_downloaded := 0; ap_failed := 0 |}.
(** torrent.rs 189-195 (the counters cannot reach 2^64; plain addition) *)
Definition update_failed (pool : list apeer) (ep : bytes) : list apeer :=
  map (fun x => if bytes_eqb (ap_endpoint x) ep
                then {| ap_endpoint := ap_endpoint x; ap_downloaded := ap_downloaded x;
                        ap_failed := ap_failed x + 1 |}
                else x) pool.
(** torrent.rs 197-203 *)
Definition update_success (pool : list apeer) (ep : bytes) : list apeer :=
  map (fun x => if bytes_eqb (ap_endpoint x) ep
                then {| ap_endpoint := ap_endpoint x; ap_downloaded := ap_downloaded x + 1;
                        ap_failed := ap_failed x |}
                else x) pool.
(** torrent.rs 205-221: find_suitable_peer on the already shuffled pool; the final [unwrap] panics
    on an empty pool. *)
Definition find_suitable_peer (shuffled : list apeer) : outcome bytes :=
  match find (fun x => (ap_failed x <? 2)%N) shuffled with
  | Some x => Ret (ap_endpoint x)
  | None =>
    match find (fun x => (ap_failed x <? 4)%N) shuffled with
    | Some x => Ret (ap_endpoint x)
    | None =>
      match shuffled with
      | x :: _ => Ret (ap_endpoint x)
      | [] => Panic
      end
    end
  end.

(** ** messages.rs *)

(** messages.rs 50-59: PieceRequested (the actor address is implicit). *)
Record piece_requested := { rq_endpoint : bytes; rq_info : info; rq_idx : N }.
(** messages.rs 40-48: PieceReady. *)
Record piece_ready := { rd_piece : bytes; rd_files : list file; rd_idx : N; rd_piece_length : N }.
(** messages.rs 19-38: what the torrent actor receives. *)
Inductive tmsg :=
| PeerFound (ep : bytes)
| PieceDownloadSuccessfull (ep : bytes) (piece : bytes) (idx : N)
| PieceDownloadFailed (ep : bytes) (idx : N).
(** What the torrent actor sends: to the writer (65) or to the connection pool (77, 105, 144). *)
Inductive effect :=
| ToWriter (r : piece_ready)
| ToConnections (r : piece_requested).

(** ** torrent.rs: the torrent actor *)

(** torrent.rs 18-26: struct TorrentActor (without the two addresses). *)
Record torrent_actor := {
  ta_info : option info;
  ta_info_hash : bytes;
  ta_peers : list apeer;
  ta_pool : option piece_pool;
  ta_initiated : bool
}.
(** torrent.rs 29-42 *)
Definition torrent_actor_new (info_hash : bytes) : torrent_actor :=
  {| ta_info := None; ta_info_hash := info_hash; ta_peers := []; ta_pool := None;
     ta_initiated := false |}.

Definition unwrap {A} (o : option A) : outcome A :=
  match o with Some a => Ret a | None => Panic end.
Definition unwrap_res {A E} (r : result A E) : outcome A :=
  match r with Ok a => Ret a | Err _ => Panic end.

(** torrent.rs 57-81: Handler<PieceDownloadSuccessfull>. *)
Definition handle_success (a : torrent_actor) (ep piece : bytes) (idx : N)
  : outcome (torrent_actor * list effect) :=
  i <- unwrap (ta_info a) ;;
  files <- unwrap_res (get_files i) ;;
  let ready := ToWriter {| rd_piece := piece; rd_files := files; rd_idx := idx;
                           rd_piece_length := get_piece_length i |} in
  let peers := update_success (ta_peers a) ep in
  pool <- unwrap (ta_pool a) ;;
  let (popped, pool') := pool_pop pool in
  let a' := {| ta_info := ta_info a; ta_info_hash := ta_info_hash a; ta_peers := peers;
               ta_pool := Some pool'; ta_initiated := ta_initiated a |} in
  Ret (a', ready :: match popped with
                    | Some n => [ToConnections {| rq_endpoint := ep; rq_info := i; rq_idx := n |}]
                    | None => []
                    end).

(** torrent.rs 87-109: Handler<PieceDownloadFailed>; [shuffle] is the random shuffle. *)
Definition handle_failed (shuffle : list apeer -> list apeer) (a : torrent_actor) (ep : bytes) (idx : N)
  : outcome (torrent_actor * list effect) :=
  pool <- unwrap (ta_pool a) ;;
  let pool1 := pool_insert pool idx in
  let peers := update_failed (ta_peers a) ep in
  new_ep <- find_suitable_peer (shuffle peers) ;;
  let (popped, pool2) := pool_pop pool1 in
  let a' := {| ta_info := ta_info a; ta_info_hash := ta_info_hash a; ta_peers := peers;
               ta_pool := Some pool2; ta_initiated := ta_initiated a |} in
  match popped with
  | Some n =>
    i <- unwrap (ta_info a) ;;
    Ret (a', [ToConnections {| rq_endpoint := new_ep; rq_info := i; rq_idx := n |}])
  | None => Ret (a', [])
  end.

(** torrent.rs 133-147: the loop of five requests. [k] counts up from 0 and selects the shuffle. *)
Fixpoint initial_requests (rounds k : nat) (shuffle : nat -> list apeer -> list apeer) (i : info)
  (peers : list apeer) (pool : piece_pool) (initiated : bool)
  : outcome (piece_pool * bool * list effect) :=
  match rounds with
  | O => Ret (pool, initiated, [])
  | S r =>
    ep <- find_suitable_peer (shuffle k peers) ;;
    match pool_pop pool with
    | (Some n, pool') =>
      '(pool'', ini, es) <- initial_requests r (S k) shuffle i peers pool' true ;;
      Ret (pool'', ini, ToConnections {| rq_endpoint := ep; rq_info := i; rq_idx := n |} :: es)
    | (None, pool') => initial_requests r (S k) shuffle i peers pool' initiated
    end
  end.

(** torrent.rs 115-153: Handler<PeerFound>. [found] is what collect_info (156-171) does. *)
Definition handle_peer_found (p : profile) (found : outcome (option info))
  (shuffle : nat -> list apeer -> list apeer) (a : torrent_actor) (ep : bytes)
  : outcome (torrent_actor * list effect) :=
  let peers := ta_peers a ++ [apeer_new ep] in
  match ta_info a with
  | None =>
    r <- found ;;
    match r with
    | Some i =>
      total <- get_total_length p i ;;
      count <- step_by_len total (get_piece_length i) ;;
      Ret ({| ta_info := Some i; ta_info_hash := ta_info_hash a; ta_peers := peers;
              ta_pool := Some (pool_new count); ta_initiated := ta_initiated a |}, [])
    | None =>
      Ret ({| ta_info := None; ta_info_hash := ta_info_hash a; ta_peers := peers;
              ta_pool := ta_pool a; ta_initiated := ta_initiated a |}, [])
    end
  | Some i =>
    if (10 <? lenN peers)%N && negb (ta_initiated a) then
      pool <- unwrap (ta_pool a) ;;
      '(pool', ini, es) <- initial_requests 5 0 shuffle i peers pool (ta_initiated a) ;;
      Ret ({| ta_info := Some i; ta_info_hash := ta_info_hash a; ta_peers := peers;
              ta_pool := Some pool'; ta_initiated := ini |}, es)
    else
      Ret ({| ta_info := Some i; ta_info_hash := ta_info_hash a; ta_peers := peers;
              ta_pool := ta_pool a; ta_initiated := ta_initiated a |}, [])
  end.

(** One message of the torrent actor's mailbox. *)
Definition handle (p : profile) (found : outcome (option info))
  (shuffle : nat -> list apeer -> list apeer) (a : torrent_actor) (m : tmsg)
  : outcome (torrent_actor * list effect) :=
  match m with
  | PeerFound ep => handle_peer_found p found shuffle a ep
  | PieceDownloadSuccessfull ep piece idx => handle_success a ep piece idx
  | PieceDownloadFailed ep idx => handle_failed (shuffle 0) a ep idx
  end.

(** ** The whole torrent: actor, mailbox, connection pool of five workers, writer, disk *)

(** What has happened so far, oldest first: a message was handled, or a message was sent. *)
Inductive event := Handled (m : tmsg) | Sent (e : effect).

Record sys := {
  sy_actor : torrent_actor;
  sy_dead : bool;                       (* the torrent actor has panicked *)
  sy_mail : list tmsg;                  (* its mailbox *)
  sy_queue : list piece_requested;      (* queue of the connection pool *)
  sy_working : list piece_requested;    (* downloads being executed by a worker *)
  sy_workers : nat;                     (* worker threads alive *)
  sy_writer : list piece_ready;         (* queue of the writer *)
  sy_writer_dead : bool;                (* the writer thread has panicked *)
  sy_disk : fs;
  sy_trace : list event
}.

(** torrent.rs 30-31: five connection workers, one writer. *)
Definition sys_init (info_hash : bytes) (disk : fs) : sys :=
  {| sy_actor := torrent_actor_new info_hash; sy_dead := false; sy_mail := []; sy_queue := [];
     sy_working := []; sy_workers := 5; sy_writer := []; sy_writer_dead := false;
     sy_disk := disk; sy_trace := [] |}.

(** Scheduler choices and environment inputs. *)
Inductive op :=
| OPeer (ep : bytes)                                    (* a tracker actor reports a peer *)
| OHandle (k : nat) (found : outcome (option info))     (* the torrent actor handles mail k *)
          (shuffle : nat -> list apeer -> list apeer)
| OStart                                                (* a free worker takes the next request *)
| OFinish (i : nat) (net : option stream) (pid : bytes) (fuel : nat)  (* worker i runs download *)
| OWrite.                                               (* the writer handles its next message *)

Fixpoint remove_nth {A} (k : nat) (l : list A) : list A :=
  match k, l with
  | _, [] => []
  | O, _ :: t => t
  | S k', x :: t => x :: remove_nth k' t
  end.

Definition requests_of (es : list effect) : list piece_requested :=
  flat_map (fun e => match e with ToConnections r => [r] | ToWriter _ => [] end) es.
Definition readies_of (es : list effect) : list piece_ready :=
  flat_map (fun e => match e with ToWriter r => [r] | ToConnections _ => [] end) es.

Section System.
  Variable sha1 : bytes -> bytes.
  Variable p : profile.
  Variable cwd : loc.

  (** Mailboxes: actix delivers in order; the model lets the scheduler pick any message, which
      allows more behaviours. A panicking worker thread is not replaced (SyncArbiter) and its
      message is lost; messages to a dead torrent actor are never handled. *)
  Definition sys_step (s : sys) (o : op) : sys :=
    match o with
    | OPeer ep =>
      {| sy_actor := sy_actor s; sy_dead := sy_dead s; sy_mail := sy_mail s ++ [PeerFound ep];
         sy_queue := sy_queue s; sy_working := sy_working s; sy_workers := sy_workers s;
         sy_writer := sy_writer s; sy_writer_dead := sy_writer_dead s; sy_disk := sy_disk s;
         sy_trace := sy_trace s |}
    | OHandle k found shuffle =>
      if sy_dead s then s
      else match nth_error (sy_mail s) k with
      | None => s
      | Some m =>
        match handle p found shuffle (sy_actor s) m with
        | Ret (a, es) =>
          {| sy_actor := a; sy_dead := false; sy_mail := remove_nth k (sy_mail s);
             sy_queue := sy_queue s ++ requests_of es; sy_working := sy_working s;
             sy_workers := sy_workers s; sy_writer := sy_writer s ++ readies_of es;
             sy_writer_dead := sy_writer_dead s; sy_disk := sy_disk s;
             sy_trace := sy_trace s ++ Handled m :: map Sent es |}
        | Panic =>
          {| sy_actor := sy_actor s; sy_dead := true; sy_mail := remove_nth k (sy_mail s);
             sy_queue := sy_queue s; sy_working := sy_working s;
             sy_workers := sy_workers s; sy_writer := sy_writer s;
             sy_writer_dead := sy_writer_dead s; sy_disk := sy_disk s;
             sy_trace := sy_trace s |}
        | OutOfFuel => s
        end
      end
    | OStart =>
      match sy_queue s with
      | r :: rest =>
        if (List.length (sy_working s) <? sy_workers s)%nat then
          {| sy_actor := sy_actor s; sy_dead := sy_dead s; sy_mail := sy_mail s;
             sy_queue := rest; sy_working := sy_working s ++ [r]; sy_workers := sy_workers s;
             sy_writer := sy_writer s; sy_writer_dead := sy_writer_dead s; sy_disk := sy_disk s;
             sy_trace := sy_trace s |}
        else s
      | [] => s
      end
    | OFinish k net pid fuel =>
      match nth_error (sy_working s) k with
      | None => s
      | Some r =>
        (** connection.rs 24-42 *)
        let finish (mail : list tmsg) (workers : nat) :=
          {| sy_actor := sy_actor s; sy_dead := sy_dead s; sy_mail := sy_mail s ++ mail;
             sy_queue := sy_queue s; sy_working := remove_nth k (sy_working s);
             sy_workers := workers; sy_writer := sy_writer s;
             sy_writer_dead := sy_writer_dead s; sy_disk := sy_disk s; sy_trace := sy_trace s |} in
        match download sha1 p fuel net pid (rq_endpoint r) (rq_info r) (rq_idx r) with
        | Ret (Ok piece) =>
          finish [PieceDownloadSuccessfull (rq_endpoint r) piece (rq_idx r)] (sy_workers s)
        | Ret (Err _) => finish [PieceDownloadFailed (rq_endpoint r) (rq_idx r)] (sy_workers s)
        | Panic => finish [] (sy_workers s - 1)%nat
        | OutOfFuel => s
        end
      end
    | OWrite =>
      if sy_writer_dead s then s
      else match sy_writer s with
      | [] => s
      | r :: rest =>
        (** writer.rs (actor) 21-25 *)
        match write p cwd (sy_disk s) (rd_piece r) (rd_idx r) (rd_files r) (rd_piece_length r) with
        | Ret d =>
          {| sy_actor := sy_actor s; sy_dead := sy_dead s; sy_mail := sy_mail s;
             sy_queue := sy_queue s; sy_working := sy_working s; sy_workers := sy_workers s;
             sy_writer := rest; sy_writer_dead := false; sy_disk := d; sy_trace := sy_trace s |}
        | Panic =>
          (** what was written before the panic stays *)
          {| sy_actor := sy_actor s; sy_dead := sy_dead s; sy_mail := sy_mail s;
             sy_queue := sy_queue s; sy_working := sy_working s; sy_workers := sy_workers s;
             sy_writer := rest; sy_writer_dead := true;
             sy_disk := write_left p cwd (sy_disk s) (rd_piece r) (rd_idx r) (rd_files r) (rd_piece_length r);
             sy_trace := sy_trace s |}
        | OutOfFuel => s
        end
      end
    end.

  Definition sys_run (s : sys) (ops : list op) : sys := fold_left sys_step ops s.
End System.

(** Admissible inputs: a shuffle only reorders. *)
Definition op_ok (o : op) : Prop :=
  match o with
  | OHandle _ _ shuffle => forall k l, Permutation (shuffle k l) l
  | _ => True
  end.
