(** SpecLink: executions from the link to the last byte, in terms of the world around the program. *)
From Verif Require Import Base ModelBencode ModelTorrent ModelTracker ModelWriter ModelStream ModelPeer ModelActors ModelCache ModelMain ModelLive
  SpecBencode SpecTorrent SpecWriter SpecPieces SpecSystem SpecCache SpecMain SpecWhole SpecForever SpecLive.

(** The trackers of [ks] stay alive, and neither they nor the trackers interface leave a message or a job as it is forever. *)
Definition attended (sha1 : bytes -> bytes) (p : profile) (cwd : loc) (d : fs) (ops : nat -> pop) (ks : list nat) : Prop :=
  let s := state_at sha1 p cwd d ops in
  (forall n r, In r (pr_interface (s n)) -> exists m, (n <= m)%nat /\ ~ In r (pr_interface (s m))) /\
  (forall k n x, In k ks -> nth_error (pr_trackers (s n)) k = Some x ->
     tk_alive x = true /\
     (forall r, In r (tk_mail x) -> exists m y, (n <= m)%nat /\ nth_error (pr_trackers (s m)) k = Some y /\ ~ In r (tk_mail y)) /\
     (forall j, In j (tk_jobs x) -> exists m y, (n <= m)%nat /\ nth_error (pr_trackers (s m)) k = Some y /\ ~ In j (tk_jobs y))).

(** The lookups that ended during the first [n] steps, and those of the trackers of [ks]. *)
Definition looked_up (sha1 : bytes -> bytes) (p : profile) (cwd : loc) (d : fs) (ops : nat -> pop) (n : nat) : list lookup_done :=
  lookups sha1 p cwd (process_init d) (map ops (seq 0 n)).
Definition by_trackers (ks : list nat) (l : list lookup_done) : list lookup_done :=
  filter (fun x => existsb (Nat.eqb (ld_tracker x)) ks) l.

(** How many of the peers can be connected to; [c] says which addresses accept connections. *)
Definition reachable_count (c : N * N * N * N * N -> bool) (l : list peer_endpoint) : nat :=
  List.length (filter (fun e => is_reachable c (endpoint e)) l).

(** A server that has the description [i] of the torrent with hash [h], and lets the client begin. *)
Definition has_description (h : bytes) (i : info) (v : server) : Prop :=
  sd_ih v = h /\ sd_metadata v = benc (info_value i) /\ (0 < sd_number v)%N /\
  welcoming (under_number (lenN (sd_metadata v)) (sd_number v)) v /\ no_metadata v.

(** If the step is a message of a peer to torrent number [t] while it has no description, and a peer is asked for it, then the connection
    goes as one with such a server, and the file system takes the whole description. *)
Definition introduced (i : info) (t : nat) (s : process) (o : pop) : Prop :=
  match o with
  | PHandle u k accept fuel net pid _ => u = t -> forall x ep, nth_error (pr_torrents s) t = Some x ->
      ta_info (sy_actor x) = None -> nth_error (sy_mail x) k = Some (PeerFound ep) ->
      let h := ta_info_hash (sy_actor x) in
      exists v, has_description h i v /\ List.length pid = 20%nat /\
        (11 + 10 * N.to_nat (piece_count (lenN (benc (info_value i))) 16384) <= fuel)%nat /\
        (List.length (js_info i) <= accept)%nat /\
        get_info fuel net pid h ep = get_info_l serving (server_hears v) server_says fuel [] newly pid h ep
  | _ => True
  end.

(** Every link that is posted is the link of a properly made torrent, with pieces of whole blocks or one piece only, and the disk was
    ready for it in the beginning; torrents with the same hash are the same. *)
Record proper_links (sha1 : bytes -> bytes) (p : profile) (cwd : loc) (I : nat -> info) (F : nat -> list file) (T : nat -> bytes)
  (d : fs) (ops : nat -> pop) : Prop := {
  pl_hash : forall n t h, nth_error (accepted p (map ops (seq 0 n))) t = Some h -> h = sha1 (benc (info_value (I t)));
  pl_same : forall t u, sha1 (benc (info_value (I t))) = sha1 (benc (info_value (I u))) -> I t = I u;
  pl_made : forall t, publishable sha1 (I t) (F t) (T t);
  pl_blocks : forall t, (i_piece_length (I t) mod 16384 = 0 \/ lenN (T t) <= i_piece_length (I t))%N;
  pl_apart : forall n, apart (List.length (pr_torrents (state_at sha1 p cwd d ops n))) F T;
  pl_disk : forall t, disk_ready cwd (F t) d;
  pl_saved : forall t, description_ok cwd (sha1 (benc (info_value (I t)))) (I t) d
}.
