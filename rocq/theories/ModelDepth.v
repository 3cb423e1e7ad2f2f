(** ModelDepth: the decoder of src/bencode/decode.rs once more, run on a thread whose stack has a limited number
    of frames. decode calls parse_list or parse_dictionary (130-131), which call decode for every element
    (98, 118): one [room] is the space for one call of decode with the parse function it is in. A call for which there is
    no room ends the whole process (Rust aborts it with SIGABRT; nothing is unwound or caught). *)
From Verif Require Import Base Utf8 ModelBencode.

(** What becomes of a computation on a limited stack. *)
Inductive stacked (A : Type) : Type :=
| Ran (o : outcome A)
| Overflow.
Arguments Ran {A} o.
Arguments Overflow {A}.

(** The [?] of decode.rs 98 and 118 after the recursive call. *)
Definition sbind {A B E} (m : stacked (result A E)) (k : A -> stacked (result B E)) : stacked (result B E) :=
  match m with
  | Overflow => Overflow
  | Ran (Ret (Ok a)) => k a
  | Ran (Ret (Err e)) => Ran (Ret (Err e))
  | Ran Panic => Ran Panic
  | Ran OutOfFuel => Ran OutOfFuel
  end.

(** decode.rs 125-136, 93-103, 105-123: as [decode_f], [list_f], [dict_f] of ModelBencode, where [room] is the
    number of calls of decode that still fit on the stack. *)
Fixpoint decode_s (fuel room : nat) (c : bytes) (cur : nat) {struct fuel}
  : stacked (result (metainfo * nat) decoder_error) :=
  match room with
  | O => Overflow
  | S r =>
    match fuel with
    | O => Ran OutOfFuel
    | S f =>
      match nth_error c cur with
      | None => Ran (Ret (Ok (MNothing, cur)))
      | Some b =>
        if (b =? 105)%N then Ran (parse_integer c cur)
        else if (b =? 108)%N then list_s f r c (S cur) []
        else if (b =? 100)%N then dict_s f r c (S cur) []
        else if (49 <=? b)%N && (b <=? 57)%N then
          Ran ('(s, e) <-? parse_string c cur ;; Ret (Ok (MString s, e)))
        else Ran (Ret (Ok (MNothing, cur)))
      end
    end
  end
with list_s (fuel room : nat) (c : bytes) (cur : nat) (acc : list metainfo) {struct fuel}
  : stacked (result (metainfo * nat) decoder_error) :=
  match fuel with
  | O => Ran OutOfFuel
  | S f =>
    match get_current_byte c cur with
    | Ret b =>
      if (b =? 101)%N then Ran (Ret (Ok (MList acc, S cur)))
      else sbind (decode_s f room c cur) (fun vc => list_s f room c (snd vc) (acc ++ [fst vc]))
    | Panic => Ran Panic
    | OutOfFuel => Ran OutOfFuel
    end
  end
with dict_s (fuel room : nat) (c : bytes) (cur : nat) (acc : list (bytes * metainfo)) {struct fuel}
  : stacked (result (metainfo * nat) decoder_error) :=
  match fuel with
  | O => Ran OutOfFuel
  | S f =>
    match get_current_byte c cur with
    | Ret b =>
      if (b =? 101)%N then Ran (Ret (Ok (MDictionary acc, S cur)))
      else sbind (Ran (parse_string c cur)) (fun kc =>
        if utf8_valid (fst kc) then
          sbind (decode_s f room c (snd kc)) (fun vc => dict_s f room c (snd vc) (hm_insert acc (fst kc) (fst vc)))
        else Ran (Ret (Err (BadStringFromBytes (snd kc)))))
    | Panic => Ran Panic
    | OutOfFuel => Ran OutOfFuel
    end
  end.

(** decode.rs 26-31, 125-141 on a stack with space for [room] calls; fuel as in [decode_at]. *)
Definition decode_on (room : nat) (c : bytes) : stacked (result (metainfo * nat) decoder_error) :=
  decode_s (2 * List.length c + 2) room c 0.
