(** ModelProbe: src/tracker/peer_endpoint.rs 23-28 in time: [TcpStream::connect_timeout] with 50 milliseconds, executed on the main thread
    for every peer of every answer (src/actors/tracker.rs 34-38). *)
From Verif Require Import Base ModelTracker.

(** What happens when a connection to an address is tried: it is accepted, or refused, after some milliseconds; or nothing happens. *)
Inductive reaction := Accepts (ms : N) | Refuses (ms : N) | Silent.
Definition latency := N * N * N * N * N -> reaction.

(** peer_endpoint.rs 25 *)
Definition PROBE_TIMEOUT : N := 50.
Definition probe_connects (l : latency) (a : N * N * N * N * N) : bool :=
  match l a with Accepts ms => (ms <=? PROBE_TIMEOUT)%N | Refuses _ => false | Silent => false end.

(** How long the main thread is occupied with that. An endpoint that does not parse takes no time (26). *)
Definition probe_lasts (l : latency) (ep : bytes) : N :=
  match parse_socket_addr ep with
  | None => 0
  | Some a => match l a with Accepts ms => N.min ms PROBE_TIMEOUT | Refuses ms => N.min ms PROBE_TIMEOUT | Silent => PROBE_TIMEOUT end
  end.
