(** SpecPlant: torrents that are what their links say. No helpers of the model. *)
From Verif Require Import Base ModelTorrent ModelWriter ModelStream ModelPeer ModelActors ModelMain SpecTorrent SpecWriter SpecStream
  SpecCache SpecText SpecDisk.

(** Links and everything that peers send about descriptions are bytes. *)
Definition of_octets (o : pop) : Prop :=
  match o with
  | PAdd raw _ => octets raw
  | PHandle _ _ _ _ net _ _ => forall s, net = Some s -> octets (incoming s)
  | _ => True
  end.

(** The peer of step [o], if it is asked for a description, gives that of the torrent or none. *)
Definition tells_truth (sha1 : bytes -> bytes) (s : process) (o : pop) : Prop :=
  match o with
  | PHandle t _ _ fuel net pid _ => forall x ep i, nth_error (pr_torrents s) t = Some x ->
      get_info fuel net pid (ta_info_hash (sy_actor x)) ep = Ret (Ok i) -> compute_info_hash sha1 i = ta_info_hash (sy_actor x)
  | _ => True
  end.
(** No peer of the execution [ops] from [s] lies about a description. *)
Fixpoint all_tell_truth (sha1 : bytes -> bytes) (p : profile) (cwd : loc) (s : process) (ops : list pop) : Prop :=
  match ops with
  | [] => True
  | o :: t => tells_truth sha1 s o /\ all_tell_truth sha1 p cwd (pr_step sha1 p cwd s o) t
  end.

(** Every description of a torrent that is found under the name of a hash has that hash. *)
Definition saved_right (url_form : bytes -> bytes) (sha1 : bytes -> bytes) (cwd : loc) (d : fs) : Prop :=
  forall h c i, octets h -> d (in_downloads cwd (url_form h)) = Some (NFile c) -> describes_torrent c i ->
    compute_info_hash sha1 i = h.

(** No torrent has a file where the descriptions are kept (and all their paths are plain). *)
Definition leaves_downloads (s : process) : Prop :=
  forall path, some_file s path -> sane_path path /\ forall rest, path <> s2b "downloads" :: rest.

(** A torrent's description is the one its link names. *)
Definition as_linked (sha1 : bytes -> bytes) (s : process) : Prop :=
  forall x i, In x (pr_torrents s) -> ta_info (sy_actor x) = Some i -> compute_info_hash sha1 i = ta_info_hash (sy_actor x).
