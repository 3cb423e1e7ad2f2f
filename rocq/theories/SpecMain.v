(** SpecMain: the running program seen from outside: which links were accepted, which trackers were
    asked what, which peers came out of it, and which torrents may live side by side. *)
From Coq Require Import Permutation.
From Verif Require Import Base Utf8 ModelTorrent ModelWriter ModelTracker ModelStream ModelPeer ModelActors ModelCache
  ModelMain SpecTorrent SpecWriter SpecPieces SpecSystem.

Definition started (sha1 : bytes -> bytes) (p : profile) (cwd : loc) (d : fs) (ops : list pop) (s : process) : Prop :=
  Forall pop_ok ops /\ s = pr_run sha1 p cwd (process_init d) ops.

(** ** Requests *)

(** A link with a hash in hexadecimal: [xt=urn:btih:] first, another parameter after the hash. *)
Definition hex_link (raw h : bytes) : Prop :=
  exists x rest, raw = s2b "magnet:?xt=urn:btih:" ++ x ++ s2b "&" ++ rest /\
    List.length x = 40%nat /\ unhex x = Some h /\ utf8_valid raw = true /\ (lenN raw <= 262144)%N.

(** The hash that a request starts a torrent for. *)
Definition accepts (p : profile) (raw : bytes) : option bytes :=
  if (lenN raw <=? 262144)%N && utf8_valid raw then
    match parse_magnet p raw with Ret (Ok h) => Some h | _ => None end
  else None.
(** The hashes of the accepted requests, oldest first: torrent number [t] is the [t]-th of them. *)
Definition accepted (p : profile) (ops : list pop) : list bytes :=
  flat_map (fun o => match o with
                     | PAdd raw _ => match accepts p raw with Some h => [h] | None => [] end
                     | _ => []
                     end) ops.
(** No mailbox ever refuses a message. *)
Definition never_full (o : pop) : Prop :=
  match o with
  | PAdd _ full => full = false
  | PInterface full => forall k, full k = false
  | _ => True
  end.

(** ** Lookups *)

(** Tracker number [k] was asked for peers of [hash], on behalf of torrent [t], under the network
    conditions [e], and the lookup ended. *)
Record lookup_done := { ld_tracker : nat; ld_torrent : nat; ld_hash : bytes; ld_env : lookup_env }.
Definition lookup_at (s : process) (o : pop) : list lookup_done :=
  match o with
  | PLookup k j e =>
    match nth_error (pr_trackers s) k with
    | Some x =>
      match nth_error (tk_jobs x) j with
      | Some (Asking r) =>
        match lookup e (tk_url x) (rg_hash r) with
        | OutOfFuel => []
        | _ => [{| ld_tracker := k; ld_torrent := rg_torrent r; ld_hash := rg_hash r; ld_env := e |}]
        end
      | _ => []
      end
    | None => []
    end
  | _ => []
  end.
(** All lookups of an execution, oldest first. *)
Fixpoint lookups (sha1 : bytes -> bytes) (p : profile) (cwd : loc) (s : process) (ops : list pop) : list lookup_done :=
  match ops with
  | [] => []
  | o :: t => lookup_at s o ++ lookups sha1 p cwd (pr_step sha1 p cwd s o) t
  end.
(** The lookups of tracker [k] for torrent [t]. *)
Definition between (k t : nat) (l : list lookup_done) : list lookup_done :=
  filter (fun x => (ld_tracker x =? k)%nat && (ld_torrent x =? t)%nat) l.
(** The peers in the answer of a lookup. *)
Definition answer_peers (x : lookup_done) : list peer_endpoint :=
  match nth_error tracker_urls (ld_tracker x) with
  | Some u => match lookup (ld_env x) u (ld_hash x) with Ret (Ok l) => l | _ => [] end
  | None => []
  end.
(** The peers in the answers of all lookups for torrent [t]. *)
Definition peers_for (t : nat) (l : list lookup_done) : list peer_endpoint :=
  flat_map (fun x => if (ld_torrent x =? t)%nat then answer_peers x else []) l.

(** No tracker has anything left to do. *)
Definition trackers_idle (s : process) : Prop :=
  pr_interface s = [] /\ forall x, In x (pr_trackers s) -> tk_mail x = [] /\ tk_jobs x = [].
Definition trackers_alive (s : process) : Prop := forall x, In x (pr_trackers s) -> tk_alive x = true.

(** Peers accept connections or not, the same during the whole execution. *)
Definition reachability (c : N * N * N * N * N -> bool) (o : pop) : Prop :=
  match o with
  | PReport _ _ connects => forall a, connects a = c a
  | _ => True
  end.

(** ** Several torrents *)

(** The same torrent, except for what its writer has done. *)
Definition agree (a b : sys) : Prop :=
  sy_actor a = sy_actor b /\ sy_dead a = sy_dead b /\ sy_mail a = sy_mail b /\ sy_queue a = sy_queue b /\
  sy_working a = sy_working b /\ sy_workers a = sy_workers b /\ sy_trace a = sy_trace b.

(** No file of one is a file of the other, or lies inside one. *)
Definition disjoint (fs gs : list file) : Prop :=
  forall f g, In f fs -> In g gs -> ~ is_prefix (f_path f) (f_path g) /\ ~ is_prefix (f_path g) (f_path f).
(** No file is, contains or lies inside the directory of the saved descriptions. *)
Definition outside_downloads (fs : list file) : Prop :=
  forall f, In f fs -> hd [] (f_path f) <> s2b "downloads".

(** What the torrents are about: torrent number [t] has the files [F t] with the content [T t], and
    whatever description it has learned describes them. *)
Definition told (sha1 : bytes -> bytes) (F : nat -> list file) (T : nat -> bytes) (s : process) : Prop :=
  forall t x i, nth_error (pr_torrents s) t = Some x -> ta_info (sy_actor x) = Some i -> describes sha1 i (F t) (T t).
(** Any two of the first [n] torrents are the same content or have nothing to do with each other, and
    none of them gets in the way of the saved descriptions. *)
Definition apart (n : nat) (F : nat -> list file) (T : nat -> bytes) : Prop :=
  (forall t, (t < n)%nat -> good_files (F t) /\ outside_downloads (F t)) /\
  (forall t u, (t < n)%nat -> (u < n)%nat -> (F t = F u /\ T t = T u) \/ disjoint (F t) (F u)).
(** Somebody sent wrong data with the right hash to one of the torrents. *)
Definition some_collision (sha1 : bytes -> bytes) (T : nat -> bytes) (s : process) : Prop :=
  exists t x i, nth_error (pr_torrents s) t = Some x /\ ta_info (sy_actor x) = Some i /\
    collision sha1 (i_piece_length i) (T t) x.
(** A location inside the directory of the saved descriptions, or that directory. *)
Definition in_saved (cwd : loc) (l : loc) : Prop := is_prefix (cwd ++ [s2b "downloads"]) l.
