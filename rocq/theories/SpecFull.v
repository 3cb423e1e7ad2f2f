(** SpecFull: a torrent on a disk that may refuse, without helpers of the model. *)
From Verif Require Import Base ModelTorrent ModelWriter ModelActors ModelFull SpecWriter SpecSystem SpecGap.

(** States that an execution can reach, whatever the operating system makes of the writes. *)
Definition reached_v (sha1 : bytes -> bytes) (p : profile) (cwd : loc) (ih : bytes) (d : fs) (s : sys) : Prop :=
  exists ops, Forall (fun o => op_ok (fst o)) ops /\ s = sys_run_v sha1 p cwd (sys_init ih d) ops.

(** Two states that differ at most in the writer and the disk. *)
Definition alike_but_disk (s t : sys) : Prop :=
  sy_actor s = sy_actor t /\ sy_dead s = sy_dead t /\ sy_mail s = sy_mail t /\ sy_queue s = sy_queue t /\ sy_working s = sy_working t /\
  sy_workers s = sy_workers t /\ sy_trace s = sy_trace t.

(** Of the bytes of piece [idx], none has changed between two disks, except that nothing may have become a zero. *)
Definition left_alone (cwd : loc) (files : list file) (plen idx : N) (d1 d2 : fs) : Prop :=
  forall k f j b, nth_error files k = Some f -> (N.of_nat j < f_length f)%N -> ((file_start files k + N.of_nat j) / plen = idx)%N ->
    nth_error (text_at d2 (cwd ++ f_path f)) j = Some b ->
    nth_error (text_at d1 (cwd ++ f_path f)) j = Some b \/ (b = 0%N /\ (List.length (text_at d1 (cwd ++ f_path f)) <= j)%nat).

(** Verdicts that are errors, and whether byte number [j] of a write is taken. *)
Definition refused (v : verdict) : Prop := match v with VNoDir _ | VNoFile | VNoSpace => True | VAll | VShort _ => False end.
Definition takes (v : verdict) (j : nat) : Prop := match v with VAll => True | VShort n => (j < n)%nat | _ => False end.
