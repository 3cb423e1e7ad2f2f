(** SpecPieces: pieces, blocks and queues, without helpers of the model. *)
From Verif Require Import Base ModelPeer.

Definition sumN (l : list N) : N := fold_right N.add 0%N l.

(** Consecutive requests (offset, length), each of 1 to [limit] bytes, from [a] up to [b]. *)
Fixpoint tiles (limit : N) (l : list (N * N)) (a b : N) : Prop :=
  match l with
  | [] => a = b
  | (off, len) :: t => off = a /\ (1 <= len <= limit)%N /\ tiles limit t (a + len) b
  end.

(** Operations on a queue, and what happens when the pool executes them: the results of taking, and
    the pool that is left. *)
Inductive queue_op := Put (x : N) | Take.
Fixpoint run_pool (q : piece_pool) (ops : list queue_op) : list (option N) * piece_pool :=
  match ops with
  | [] => ([], q)
  | Put x :: t => run_pool (pool_insert q x) t
  | Take :: t => let (r, q1) := pool_pop q in let (rs, q2) := run_pool q1 t in (r :: rs, q2)
  end.
(** All numbers put, and all numbers obtained, in order. *)
Definition puts (ops : list queue_op) : list N := flat_map (fun o => match o with Put x => [x] | Take => [] end) ops.
Definition got (rs : list (option N)) : list N := flat_map (fun r => match r with Some x => [x] | None => [] end) rs.
Definition numbers (n : N) : list N := map N.of_nat (seq 0 (N.to_nat n)).
