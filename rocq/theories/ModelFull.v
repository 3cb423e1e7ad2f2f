(** ModelFull: a torrent whose disk does not take everything (src/torrent/writer.rs, src/actors/writer.rs once more, with an operating
    system that may refuse). *)
From Verif Require Import Base ModelTorrent ModelWriter ModelActors.

(** What the operating system makes of the calls for one file. *)
Inductive verdict :=
| VAll                (* everything works, all bytes are taken *)
| VShort (n : nat)    (* everything works, but at most [n] bytes are taken *)
| VNoDir (k : nat)    (* no more than [k] of the directories on the way can be entered or made *)
| VNoFile             (* the file cannot be opened or made *)
| VNoSpace.           (* the file is opened, but [write_at] fails *)

(** writer.rs 48-65 with a verdict: whether the call returns (it panics otherwise: four times [unwrap]), and the disk behind it. The paths
    on which it panics with every verdict are those of [write_to_filesystem_n]. *)
Definition try_file (v : verdict) (cwd : loc) (d : fs) (w : file_writer) : bool * fs :=
  let with_room (ok : bool) (n : nat) :=
    match write_to_filesystem_n n cwd d w with Ret d' => (ok, d') | _ => (false, left_by cwd d w) end in
  match v with
  | VAll => with_room true (List.length (fw_piece w))
  | VShort n => with_room true n
  | VNoDir k =>
    let text := join_slash (fw_path w) in
    let dirs := removelast (rev (drop_stays (rev (split_slash text)))) in
    (false,
     if existsb (existsb (N.eqb 0)) dirs then d
     else walk_made d (match text with
                       | b :: _ => if (b =? 47)%N then [] else cwd
                       | [] => cwd
                       end) (firstn k dirs))
  | VNoFile => (false, left_by cwd d w)
  | VNoSpace => with_room false 0%nat
  end.

(** writer.rs 21-23: the files of a piece one after the other, to the first panic. *)
Fixpoint try_files (vs : nat -> verdict) (cwd : loc) (d : fs) (ws : list file_writer) : bool * fs :=
  match ws with
  | [] => (true, d)
  | w :: t =>
    let (ok, d') := try_file (vs O) cwd d w in
    if ok then try_files (fun k => vs (S k)) cwd d' t else (false, d')
  end.

(** writer.rs 15-27: write. *)
Definition try_write (vs : nat -> verdict) (p : profile) (cwd : loc) (d : fs) (piece : bytes) (idx : N) (files : list file)
  (piece_length : N) : bool * fs :=
  match get_file_writers p files piece idx piece_length with
  | Ret ws => try_files vs cwd d ws
  | _ => (false, d)
  end.

Section System.
  Variable sha1 : bytes -> bytes.
  Variable p : profile.
  Variable cwd : loc.

  (** actors/writer.rs 21-25: the result is thrown away; a panic ends the writer's only thread. All else is as in [sys_step]. *)
  Definition sys_step_v (s : sys) (o : op * (nat -> verdict)) : sys :=
    match fst o with
    | OWrite =>
      if sy_writer_dead s then s
      else match sy_writer s with
      | [] => s
      | r :: rest =>
        let (ok, d) := try_write (snd o) p cwd (sy_disk s) (rd_piece r) (rd_idx r) (rd_files r) (rd_piece_length r) in
        {| sy_actor := sy_actor s; sy_dead := sy_dead s; sy_mail := sy_mail s;
           sy_queue := sy_queue s; sy_working := sy_working s; sy_workers := sy_workers s;
           sy_writer := rest; sy_writer_dead := negb ok; sy_disk := d; sy_trace := sy_trace s |}
      end
    | o' => sys_step sha1 p cwd s o'
    end.
  Definition sys_run_v (s : sys) (ops : list (op * (nat -> verdict))) : sys := fold_left sys_step_v ops s.
End System.
