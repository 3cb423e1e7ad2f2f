(** PropGrammar: property C66 (the language of the decoder, for every input) *)
From Verif Require Import Base ModelBencode SpecBencode SpecText SpecGrammar ProofGrammar.

(** C66: exactly these inputs are accepted, with exactly this value and this number of bytes. *)
Theorem C66_accepts : forall c v n, decode c = Ret (Ok (v, n)) <->
  exists r, value c v r /\ (n + List.length r = List.length c)%nat.
Proof. exact c66_accepts. Qed.
Print Assumptions C66_accepts.

(** C66: exactly these are refused, and the error names the digits, or the position behind the key. *)
Theorem C66_errors : forall c e, decode c = Ret (Err e) <->
  (exists ds, value_fails c (BadNumber ds) /\ e = BadNumberDecode ds) \/
  (exists r, value_fails c (BadKey r) /\ e = BadStringFromBytes (List.length c - List.length r)).
Proof. exact c66_errors. Qed.
Print Assumptions C66_errors.

(** C66: exactly these abort the decoder ... *)
Theorem C66_aborts : forall c, decode c = Panic <-> value_fails c Cut.
Proof. exact c66_aborts. Qed.
Print Assumptions C66_aborts.

(** C66: ... and on exactly these it runs for ever. *)
Theorem C66_hangs : forall c, (forall fuel, decode_f fuel c 0 = OutOfFuel) <-> value_hangs c.
Proof. exact c66_hangs. Qed.
Print Assumptions C66_hangs.

(** C66: the grammar is unambiguous. *)
Theorem C66_unambiguous : forall c v r v' r', value c v r -> value c v' r' -> v = v' /\ r = r'.
Proof. exact c66_unambiguous. Qed.
Print Assumptions C66_unambiguous.

(** C66: of several entries with one key, lookups see the last. *)
Theorem C66_last_entry : forall es k v, get_value_from_dict (MDictionary (gathered es)) k = Ok v <-> last_binding es k = Some v.
Proof. exact c66_last. Qed.
Print Assumptions C66_last_entry.

Ltac num := match goal with |- number ?d _ => let d' := eval vm_compute in d in change d with d' end;
  split; [discriminate|split; [repeat (apply Forall_cons; [unfold digit; lia|]); apply Forall_nil|split; reflexivity]].
(** Any byte ends a number or a length, and leading zeros are fine. *)
Example C66_example : value (s2b "l2;abi007xeZ") (MList [MString (s2b "ab"); MInteger 7]) (s2b "Z").
Proof.
  apply (value_list (s2b "2;abi007xeZ")).
  apply (items_more 50%N (s2b ";abi007xeZ") _ (s2b "i007xeZ")); [discriminate| |].
  - apply value_str; [exists 50%N, (s2b ";abi007xeZ"); split; [reflexivity|lia]|].
    apply (counted_intro (s2b "2") 59%N (s2b "ab") (s2b "i007xeZ")); [|unfold digit; lia].
    num.
  - apply (items_more 105%N (s2b "007xeZ") _ (s2b "eZ")); [discriminate| |apply (items_end (s2b "Z"))].
    apply (value_int (s2b "007") 7 120%N (s2b "eZ")); [|unfold digit; lia].
    num.
Qed.
Example C66_example_dictionary : gathered [(s2b "a", MInteger 1); (s2b "b", MInteger 2); (s2b "a", MInteger 3)]
  = [(s2b "a", MInteger 3); (s2b "b", MInteger 2)].
Proof. reflexivity. Qed.
Example C66_example_refused : value_fails (s2b "d0:i-1ee") (BadNumber []) /\ value_fails (s2b "d3:ab") Cut /\ value_hangs (s2b "d1:ali1e-e").
Proof.
  split; [|split].
  - apply (vf_dict (s2b "0:i-1ee")). apply (ef_value 48%N (s2b ":i-1ee") [] (s2b "i-1ee")); [discriminate| |exists []; constructor|].
    + apply (counted_intro (s2b "0") 58%N [] (s2b "i-1ee")); [|unfold digit; lia].
      num.
    + apply (vf_number [] 45%N (s2b "1ee")); [split; auto|unfold digit; lia].
  - apply (vf_dict (s2b "3:ab")). apply ef_key; [discriminate|]. apply (cf_short (s2b "3") 3%N 58%N (s2b "ab")); [|unfold digit; lia|reflexivity].
    num.
  -
    apply (vh_dict (s2b "1:ali1e-e")). apply (eh_value 49%N (s2b ":ali1e-e") (s2b "a") (s2b "li1e-e")); [discriminate| | |].
    + apply (counted_intro (s2b "1") 58%N (s2b "a") (s2b "li1e-e")); [|unfold digit; lia].
      num.
    + exists [97%N]. apply (to_cons 97%N [] [97%N] []); constructor. lia.
    + apply (vh_list (s2b "i1e-e")). apply (ih_more 105%N (s2b "1e-e") (MInteger 1) (s2b "-e")); [discriminate| |].
      * apply (value_int (s2b "1") 1 101%N (s2b "-e")); [|unfold digit; lia].
        num.
      * apply (ih_stuck 45%N (s2b "e")); [discriminate|unfold starts_value; lia].
Qed.
