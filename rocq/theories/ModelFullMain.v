(** ModelFullMain: the whole process (ModelMain) on a disk that does not take everything (ModelFull). *)
From Verif Require Import Base ModelWriter ModelActors ModelFull ModelMain.

Section Process.
  Context (sha1 : bytes -> bytes) (p : profile) (cwd : loc).

  (** src/actors/writer.rs 21-25: the writer of torrent number [t] handles its next message; [vs] says what the operating
      system makes of the calls for each file. All torrents write to the one disk. *)
  Definition torrent_write (s : process) (t : nat) (vs : nat -> verdict) : process :=
    match nth_error (pr_torrents s) t with
    | None => s
    | Some x =>
      let x' := sys_step_v sha1 p cwd (set_disk (pr_disk s) x) (OWrite, vs) in
      {| pr_torrents := update_nth t (fun _ => x') (pr_torrents s); pr_interface := pr_interface s;
         pr_trackers := pr_trackers s; pr_disk := sy_disk x' |}
    end.

  (** The steps of ModelMain (src/main.rs 26-44, src/actors/*.rs) with the verdicts they meet; only writes of pieces meet any (simplification: the saved descriptions and the log are
      taken). *)
  Definition pr_step_v (s : process) (o : pop * (nat -> verdict)) : process :=
    match fst o with
    | PWrite t => torrent_write s t (snd o)
    | o' => pr_step sha1 p cwd s o'
    end.
  (** Any number of such steps, as [pr_run]. *)
  Definition pr_run_v (s : process) (ops : list (pop * (nat -> verdict))) : process := fold_left pr_step_v ops s.
End Process.
