(** SpecMemory: what attempts to read reserve, without helpers of the model. *)
From Verif Require Import Base ModelBencode ModelMessages ModelStream ModelMemory SpecStream SpecSession SpecVerdict.

(** What the attempts of [c] reserve on [s]: [l], one number for each. *)
Definition reserves (s : stream) (c : list heard) (l : list N) : Prop :=
  map (fun e => option_map (fun v => match v with (body, id, _) => (id, body) end) (fst e)) (read_messages_m (List.length c) s) = c /\
  map snd (read_messages_m (List.length c) s) = l.
(** The reservations that turned out to be for a message. *)
Fixpoint used (c : list heard) (l : list N) : N :=
  match c, l with
  | Some _ :: c', k :: l' => (k + used c' l')%N
  | None :: c', _ :: l' => used c' l'
  | _, _ => 0%N
  end.
Definition sum (l : list N) : N := fold_right N.add 0%N l.
