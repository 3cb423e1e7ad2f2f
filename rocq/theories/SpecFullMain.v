(** SpecFullMain: the whole program on a disk that may refuse, without helpers of the model. *)
From Verif Require Import Base ModelActors ModelFull ModelMain ModelFullMain ModelWriter.

(** The program was started on the disk [d] and the steps [ops], with the verdicts of the operating system, have led to [s]. *)
Definition started_v (sha1 : bytes -> bytes) (p : profile) (cwd : loc) (d : fs) (ops : list (pop * (nat -> verdict))) (s : process) : Prop :=
  Forall (fun o => pop_ok (fst o)) ops /\ pr_run_v sha1 p cwd (process_init d) ops = s.

(** All that torrent number [t] wrote was taken. *)
Definition spared (t : nat) (ops : list (pop * (nat -> verdict))) : Prop :=
  forall o, In o ops -> fst o = PWrite t -> forall k, snd o k = VAll.
