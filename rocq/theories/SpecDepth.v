(** SpecDepth: how many values lie open inside each other while a text is read, on the grammar of SpecGrammar *)
From Verif Require Import Base SpecBencode SpecText SpecGrammar.

(** [deep k s]: while a value is read from [s], at least [k] values are begun and not finished at the same time. *)
Inductive deep : nat -> bytes -> Prop :=
| deep_zero s : deep 0 s
| deep_one s : deep 1 s
| deep_list k s : items_deep k s -> deep (S k) (108%N :: s)
| deep_dict k s : entries_deep k s -> deep (S k) (100%N :: s)
with items_deep : nat -> bytes -> Prop :=
| id_item k b t : b <> 101%N -> deep k (b :: t) -> items_deep k (b :: t)
| id_more k b t v s : b <> 101%N -> value (b :: t) v s -> items_deep k s -> items_deep k (b :: t)
with entries_deep : nat -> bytes -> Prop :=
| ed_value k b t key s : b <> 101%N -> counted (b :: t) key s -> (exists ns, text_of ns key) -> deep k s -> entries_deep k (b :: t)
| ed_more k b t key s1 v s2 : b <> 101%N -> counted (b :: t) key s1 -> (exists ns, text_of ns key) ->
    value s1 v s2 -> entries_deep k s2 -> entries_deep k (b :: t).

(** Nesting of a value: 1 for numbers, strings and empty containers. *)
Fixpoint nesting (v : bval) : nat :=
  match v with
  | BInt _ | BStr _ => 1
  | BList l => S (list_max (map nesting l))
  | BDict d => S (list_max (map (fun kv => nesting (snd kv)) d))
  end.

(** Lists inside a list: [n] of them around an empty one. *)
Fixpoint nested_lists (n : nat) : bval :=
  match n with
  | O => BList []
  | S m => BList [nested_lists m]
  end.
