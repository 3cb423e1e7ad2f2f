(** PropDepth: property C71 (how much of the call stack a text makes the decoder use) *)
From Verif Require Import Base ModelBencode ModelMessages ModelDepth SpecBencode ProofBencode SpecText SpecGrammar SpecDepth ProofDepth.

(** C71: on a stack with space for [room] nested calls the process dies exactly when the text has more than [room]
    values open inside each other at some point before the decoder stops. *)
Theorem C71_overflow_exactly : forall room c, decode_on room c = Overflow <-> deep (S room) c.
Proof. exact c71_overflow. Qed.
Print Assumptions C71_overflow_exactly.

(** C71: if it does not die, everything is as on an unlimited stack. *)
Theorem C71_otherwise_same : forall room c, ~ deep (S room) c -> decode_on room c = Ran (decode c).
Proof. exact c71_suffices. Qed.
Print Assumptions C71_otherwise_same.

(** C71: a text of at most [room] bytes never exhausts the stack. *)
Theorem C71_short_texts : forall room c, (1 <= room)%nat -> (List.length c <= room)%nat -> decode_on room c = Ran (decode c).
Proof. exact c71_length. Qed.
Print Assumptions C71_short_texts.

(** C71: for the encoding of a value (followed by anything), what counts is how deep the value is nested. *)
Theorem C71_nesting : forall v rest room, decodable text v ->
  decode_on room (benc v ++ rest) = Overflow <-> (room < nesting v)%nat.
Proof. exact c71_nesting. Qed.
Print Assumptions C71_nesting.

(** C71: no stack is large enough: a text of 2 * room + 2 bytes, read in full on a larger stack, kills the process. *)
Theorem C71_enough_stack_refuted : forall room, exists c v,
  List.length c = (2 * room + 2)%nat /\ decode c = Ret (Ok (v, List.length c)) /\ decode_on room c = Overflow.
Proof. exact c71_refuted. Qed.
Print Assumptions C71_enough_stack_refuted.

(** C71: such a text is the body of an extension message that would otherwise be read and ignored. *)
Theorem C71_harmless_message_refuted : forall room, exists c m, List.length c = (2 * room + 2)%nat /\
  (forall id, extension_from_bytes (id :: c) = Ret (Ok (m id)) /\ ex_data (m id) = []) /\ decode_on room c = Overflow.
Proof. exact c71_message. Qed.
Print Assumptions C71_harmless_message_refuted.

Example C71_example : decode_on 2 (s2b "llleee") = Overflow /\ decode_on 3 (s2b "llleee") = Ran (decode (s2b "llleee")) /\
  benc (nested_lists 2) = s2b "llleee" /\ nesting (nested_lists 2) = 3%nat.
Proof. repeat split; vm_compute; reflexivity. Qed.
(** Values beside each other share the space; keys and dropped duplicates count like the rest. *)
Example C71_example_flat : decode_on 2 (s2b "li1ei2e3:abce") = Ran (decode (s2b "li1ei2e3:abce")) /\
  decode_on 2 (s2b "d1:ali1ee1:ai2ee") = Overflow /\ decode_on 2 (s2b "d0:") = Ran (decode (s2b "d0:")) /\ decode_on 1 (s2b "d0:") = Overflow.
Proof. repeat split; vm_compute; reflexivity. Qed.
