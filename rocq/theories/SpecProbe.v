(** SpecProbe: the peers that are tried before they are reported, and the time that takes. *)
From Verif Require Import Base ModelWriter ModelTorrent ModelTracker ModelActors ModelMain ModelProbe SpecSystem SpecMain.

(** The peer that a step tries on behalf of torrent [t]. *)
Definition tried_at (t : nat) (s : process) (o : pop) : list peer_endpoint :=
  match o with
  | PReport k j _ =>
    match nth_error (pr_trackers s) k with
    | Some x =>
      match nth_error (tk_jobs x) j with
      | Some (Reporting r (e :: _)) => if (rg_torrent r =? t)%nat then [e] else []
      | _ => []
      end
    | None => []
    end
  | _ => []
  end.
Fixpoint tried (sha1 : bytes -> bytes) (p : profile) (cwd : loc) (t : nat) (s : process) (ops : list pop) : list peer_endpoint :=
  match ops with
  | [] => []
  | o :: r => tried_at t s o ++ tried sha1 p cwd t (pr_step sha1 p cwd s o) r
  end.
(** The milliseconds the main thread spends on some peers. *)
Definition time_for (l : latency) (es : list peer_endpoint) : N :=
  fold_right (fun e n => probe_lasts l (endpoint e) + n)%N 0%N es.

(** Every peer is tried under the latencies [l]. *)
Definition under (l : latency) (o : pop) : Prop :=
  match o with PReport _ _ connects => forall a, connects a = probe_connects l a | _ => True end.

(** A connection to [ep] takes no more than 50 milliseconds; it takes more, or there is none. *)
Definition close_by (l : latency) (ep : bytes) : Prop :=
  exists a ms, parse_socket_addr ep = Some a /\ l a = Accepts ms /\ (ms <= 50)%N.
Definition far_off (l : latency) (ep : bytes) : Prop :=
  forall a ms, parse_socket_addr ep = Some a -> l a = Accepts ms -> (50 < ms)%N.

(** A torrent that has done nothing at all. *)
Definition unused (x : sys) : Prop :=
  sy_trace x = [] /\ sy_mail x = [] /\ sy_queue x = [] /\ sy_working x = [] /\ sy_writer x = [] /\ ta_info (sy_actor x) = None.
(** An address at which nothing reacts within 50 milliseconds. *)
Definition no_reaction (l : latency) (a : N * N * N * N * N) : Prop :=
  match l a with Accepts ms | Refuses ms => (50 <= ms)%N | Silent => True end.
