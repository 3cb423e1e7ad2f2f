(** Utf8: [std::str::from_utf8] validity and [chars().count()] (Rust std, not code of /repo). *)
From Verif Require Import Base.

Definition in_range (lo hi b : N) : bool := (lo <=? b)%N && (b <=? hi)%N.
Definition is_cont (b : N) : bool := in_range 128 191 b.

(** Well-formed UTF-8 byte sequences, Unicode table 3-7 (what [str::from_utf8] accepts). *)
Fixpoint utf8_valid (l : bytes) : bool :=
  match l with
  | [] => true
  | a :: t =>
    if (a <? 128)%N then utf8_valid t
    else match t with
    | [] => false
    | b :: t2 =>
      if in_range 194 223 a then is_cont b && utf8_valid t2
      else match t2 with
      | [] => false
      | c :: t3 =>
        if in_range 224 239 a then
          (if (a =? 224)%N then in_range 160 191 b
           else if (a =? 237)%N then in_range 128 159 b
           else is_cont b)
          && is_cont c && utf8_valid t3
        else match t3 with
        | [] => false
        | d :: t4 =>
          if in_range 240 244 a then
            (if (a =? 240)%N then in_range 144 191 b
             else if (a =? 244)%N then in_range 128 143 b
             else is_cont b)
            && is_cont c && is_cont d && utf8_valid t4
          else false
        end
      end
    end
  end.

(** [s.chars().count()] on a valid UTF-8 string: every character has exactly one byte that is not a
    continuation byte. *)
Definition chars_count (l : bytes) : N := lenN (filter (fun b => negb (is_cont b)) l).

(** ASCII text. *)
Definition ascii (l : bytes) : Prop := Forall (fun b => (b < 128)%N) l.
