(** SpecResume: what the files that are already on the disk mean for a download. No helpers of the model. *)
From Verif Require Import Base ModelTorrent ModelStream ModelPeer ModelWriter ModelActors ModelMain SpecTorrent SpecWriter SpecSystem SpecMain.

(** Two disks that hold the same saved descriptions, whatever else they hold. *)
Definition descriptions_alike (cwd : loc) (d d' : fs) : Prop :=
  forall rest, d (cwd ++ s2b "downloads" :: rest) = d' (cwd ++ s2b "downloads" :: rest).

(** Two processes that do the same towards trackers and peers, now and from now on: only what is on the
    disk, and what the writers have done about it, may differ. *)
Definition same_outside (cwd : loc) (s s' : process) : Prop :=
  Forall2 agree (pr_torrents s) (pr_torrents s') /\ pr_interface s = pr_interface s' /\ pr_trackers s = pr_trackers s' /\
  descriptions_alike cwd (pr_disk s) (pr_disk s').

(** The pieces that peers delivered in the execution [ops] from [s], oldest first. *)
Definition delivery (sha1 : bytes -> bytes) (p : profile) (s : sys) (o : op) : list (N * bytes) :=
  match o with
  | OFinish k net pid fuel =>
    match nth_error (sy_working s) k with
    | Some r => match download sha1 p fuel net pid (rq_endpoint r) (rq_info r) (rq_idx r) with
                | Ret (Ok piece) => [(rq_idx r, piece)]
                | _ => []
                end
    | None => []
    end
  | _ => []
  end.
Fixpoint deliveries (sha1 : bytes -> bytes) (p : profile) (cwd : loc) (s : sys) (ops : list op) : list (N * bytes) :=
  match ops with
  | [] => []
  | o :: t => delivery sha1 p s o ++ deliveries sha1 p cwd (sys_step sha1 p cwd s o) t
  end.
(** The pieces that were handed to the writer, and those that are on their way there. *)
Definition handed_over (s : sys) : list (N * bytes) := map (fun r => (rd_idx r, rd_piece r)) (to_writer (sy_trace s)).
Definition on_its_way (s : sys) : list (N * bytes) :=
  flat_map (fun m => match m with PieceDownloadSuccessfull _ piece idx => [(idx, piece)] | _ => [] end) (sy_mail s).
