(** SpecLog: executions with a log, and which torrents stay clear of it. No helpers of the model. *)
From Verif Require Import Base ModelTorrent ModelWriter ModelActors ModelMain ModelLog SpecTorrent SpecWriter SpecMain SpecDisk.

(** The steps of an execution without the log, and the lines of the log. *)
Definition acts (ops : list lop) : list pop := flat_map (fun o => match o with Act o => [o] | Log _ => [] end) ops.
Definition lines (ops : list lop) : list bytes := flat_map (fun o => match o with Act _ => [] | Log l => [l] end) ops.

(** The program was started on the disk [d] and has got to [s]. *)
Definition runs (sha1 : bytes -> bytes) (p : profile) (cwd : loc) (d : fs) (ops : list lop) (s : logged) : Prop :=
  Forall pop_ok (acts ops) /\ exists s0, log_start cwd d = Ret s0 /\ s = log_run sha1 p cwd s0 ops.

(** [n] stands in the text [t] between slashes or its ends. *)
Definition has_segment (n t : bytes) : Prop :=
  exists a b, t = a ++ n ++ b /\ (a = [] \/ exists a', a = a' ++ s2b "/") /\ (b = [] \/ exists b', b = s2b "/" ++ b').
(** No file of a torrent has the name of the log in its path, unless the path is plain and does not begin with it. *)
Definition spares_log (s : process) : Prop :=
  forall path, some_file s path ->
    (forall t, In t path -> ~ has_segment (s2b "test.log") t) \/ (sane_path path /\ hd [] path <> s2b "test.log").

(** The same torrent, on whichever disk. *)
Definition same_torrent (x y : sys) : Prop :=
  agree x y /\ sy_writer x = sy_writer y /\ sy_writer_dead x = sy_writer_dead y.
(** The same process, but for what is at the location [l0]. *)
Definition same_but (l0 : loc) (s s' : process) : Prop :=
  Forall2 same_torrent (pr_torrents s) (pr_torrents s') /\ pr_interface s = pr_interface s' /\
  pr_trackers s = pr_trackers s' /\ forall l, l <> l0 -> pr_disk s l = pr_disk s' l.
