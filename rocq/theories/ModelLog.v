(** ModelLog: src/main.rs 50-66: the log file, beside the process of ModelMain *)
From Verif Require Import Base ModelTorrent ModelWriter ModelActors ModelMain.

(** main.rs 50: the name of the log. *)
Definition log_place (cwd : loc) : loc := cwd ++ [s2b "test.log"].

(** The process with its log. [lg_end] is the position of the logger's open file: the file is not opened for appending, so
    the next line goes there whatever has been done to the file otherwise. *)
Record logged := { lg_process : process; lg_end : N }.

(** main.rs 47-66: [File::create] makes the file or empties it; [expect] panics if it cannot. Simplified: the working directory
    exists, and a directory called test.log is the only reason for a failure. *)
Definition log_start (cwd : loc) (d : fs) : outcome logged :=
  match d (log_place cwd) with
  | Some NDir => Panic
  | _ => Ret {| lg_process := process_init (fs_set d (log_place cwd) (NFile [])); lg_end := 0 |}
  end.

(** What happens: a step of the process, or a line is logged. With the level Debug for all modules (main.rs 64) every crate logs,
    so any line may come at any time. *)
Inductive lop := Act (o : pop) | Log (line : bytes).

(** env_logger, Target::Pipe: each record is written in one piece. The file is still the one that was opened, because nothing
    in the program removes or renames files. Simplified: the system takes all of it. *)
Definition log_step (sha1 : bytes -> bytes) (p : profile) (cwd : loc) (s : logged) (o : lop) : logged :=
  match o with
  | Act o => {| lg_process := pr_step sha1 p cwd (lg_process s) o; lg_end := lg_end s |}
  | Log line =>
    let d := pr_disk (lg_process s) in
    match d (log_place cwd) with
    | Some (NFile c) =>
      {| lg_process := with_disk (lg_process s) (fs_set d (log_place cwd) (NFile (write_at c (lg_end s) line)));
         lg_end := lg_end s + lenN line |}
    | _ => s
    end
  end.
Definition log_run (sha1 : bytes -> bytes) (p : profile) (cwd : loc) (s : logged) (ops : list lop) : logged :=
  fold_left (log_step sha1 p cwd) ops s.
