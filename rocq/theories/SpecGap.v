(** SpecGap: what may stand in a file that is not finished. *)
From Verif Require Import Base ModelTorrent ModelWriter SpecWriter.

(** What a disk has at a place, as a file. *)
Definition text_at (d : fs) (l : loc) : bytes := match d l with Some (NFile c) => c | _ => [] end.

(** Every byte of every file of the torrent is the right one, or the one that was there before, or a zero where there was none. *)
Definition accounted (cwd : loc) (files : list file) (T : bytes) (d1 d2 : fs) : Prop :=
  forall k f j b, nth_error files k = Some f -> nth_error (text_at d2 (cwd ++ f_path f)) j = Some b ->
    nth_error (file_content T files k f) j = Some b \/
    nth_error (text_at d1 (cwd ++ f_path f)) j = Some b \/
    (b = 0%N /\ (List.length (text_at d1 (cwd ++ f_path f)) <= j)%nat).
