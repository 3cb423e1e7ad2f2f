(** SpecGrammar: the language of the decoder as a grammar over the input that is left, without helpers of the
    model (only its type of decoded values). *)
From Verif Require Import Base ModelBencode SpecBencode SpecText.

(** A number: digits, at least one, leading zeros allowed, below 2^64. *)
Definition number (ds : bytes) (n : N) : Prop := ds <> [] /\ Forall digit ds /\ n = numeral ds /\ (n < 2 ^ 64)%N.
(** Digits that are no number. *)
Definition no_number (ds : bytes) : Prop := Forall digit ds /\ (ds = [] \/ 2 ^ 64 <= numeral ds)%N.

(** [counted s str r]: [s] starts with the length of [str], any byte that is no digit, and [str]; [r] is left. *)
Inductive counted : bytes -> bytes -> bytes -> Prop :=
| counted_intro ds b str r : number ds (N.of_nat (List.length str)) -> ~ digit b -> counted (ds ++ b :: str ++ r) str r.

(** Entries of a dictionary: of several with one key the last counts. Listed in order of first appearance. *)
Definition gathered (es : list (bytes * metainfo)) : list (bytes * metainfo) :=
  flat_map (fun k => match last_binding es k with Some v => [(k, v)] | None => [] end)
    (rev (nodup (list_eq_dec N.eq_dec) (rev (map fst es)))).

(** The bytes that start a value: "i", "l", "d" and "1" to "9". *)
Definition starts_value (b : N) : Prop := b = 105%N \/ b = 108%N \/ b = 100%N \/ (49 <= b <= 57)%N.
Definition starts_string (s : bytes) : Prop := exists b t, s = b :: t /\ (49 <= b <= 57)%N.

(** [value s v r]: [v] is read from [s] and [r] is left. Where no value starts, nothing is read; numbers and
    lengths may be ended by any byte. 101 is "e". *)
Inductive value : bytes -> metainfo -> bytes -> Prop :=
| value_end : value [] MNothing []
| value_none b t : ~ starts_value b -> value (b :: t) MNothing (b :: t)
| value_int ds n b r : number ds n -> ~ digit b -> value (105%N :: ds ++ b :: r) (MInteger n) r
| value_str s str r : starts_string s -> counted s str r -> value s (MString str) r
| value_list s l r : items s l r -> value (108%N :: s) (MList l) r
| value_dict s es r : entries s es r -> value (100%N :: s) (MDictionary (gathered es)) r
with items : bytes -> list metainfo -> bytes -> Prop :=
| items_end r : items (101%N :: r) [] r
| items_more b t v s l r : b <> 101%N -> value (b :: t) v s -> items s l r -> items (b :: t) (v :: l) r
with entries : bytes -> list (bytes * metainfo) -> bytes -> Prop :=
| entries_end r : entries (101%N :: r) [] r
| entries_more b t key s1 v s2 es r : b <> 101%N -> counted (b :: t) key s1 -> (exists ns, text_of ns key) ->
    value s1 v s2 -> entries s2 es r -> entries (b :: t) ((key, v) :: es) r.

(** Why reading ends without a value: the input ends too early; digits that are no number; a key that is no text
    (what is left behind it is recorded). *)
Inductive failure := Cut | BadNumber (ds : bytes) | BadKey (left : bytes).

Inductive counted_fails : bytes -> failure -> Prop :=
| cf_digits ds : Forall digit ds -> counted_fails ds Cut
| cf_number ds b r : no_number ds -> ~ digit b -> counted_fails (ds ++ b :: r) (BadNumber ds)
| cf_short ds n b r : number ds n -> ~ digit b -> (N.of_nat (List.length r) < n)%N -> counted_fails (ds ++ b :: r) Cut.

Inductive value_fails : bytes -> failure -> Prop :=
| vf_digits ds : Forall digit ds -> value_fails (105%N :: ds) Cut
| vf_number ds b r : no_number ds -> ~ digit b -> value_fails (105%N :: ds ++ b :: r) (BadNumber ds)
| vf_str s f : starts_string s -> counted_fails s f -> value_fails s f
| vf_list s f : items_fail s f -> value_fails (108%N :: s) f
| vf_dict s f : entries_fail s f -> value_fails (100%N :: s) f
with items_fail : bytes -> failure -> Prop :=
| if_end : items_fail [] Cut
| if_item b t f : b <> 101%N -> value_fails (b :: t) f -> items_fail (b :: t) f
| if_more b t v s f : b <> 101%N -> value (b :: t) v s -> items_fail s f -> items_fail (b :: t) f
with entries_fail : bytes -> failure -> Prop :=
| ef_end : entries_fail [] Cut
| ef_key b t f : b <> 101%N -> counted_fails (b :: t) f -> entries_fail (b :: t) f
| ef_text b t key s : b <> 101%N -> counted (b :: t) key s -> ~ (exists ns, text_of ns key) -> entries_fail (b :: t) (BadKey s)
| ef_value b t key s f : b <> 101%N -> counted (b :: t) key s -> (exists ns, text_of ns key) -> value_fails s f -> entries_fail (b :: t) f
| ef_more b t key s1 v s2 f : b <> 101%N -> counted (b :: t) key s1 -> (exists ns, text_of ns key) ->
    value s1 v s2 -> entries_fail s2 f -> entries_fail (b :: t) f.

(** When reading never ends: inside a list, at a byte other than "e" at which no value starts. *)
Inductive value_hangs : bytes -> Prop :=
| vh_list s : items_hang s -> value_hangs (108%N :: s)
| vh_dict s : entries_hang s -> value_hangs (100%N :: s)
with items_hang : bytes -> Prop :=
| ih_stuck b t : b <> 101%N -> ~ starts_value b -> items_hang (b :: t)
| ih_item b t : b <> 101%N -> value_hangs (b :: t) -> items_hang (b :: t)
| ih_more b t v s : b <> 101%N -> value (b :: t) v s -> items_hang s -> items_hang (b :: t)
with entries_hang : bytes -> Prop :=
| eh_value b t key s : b <> 101%N -> counted (b :: t) key s -> (exists ns, text_of ns key) -> value_hangs s -> entries_hang (b :: t)
| eh_more b t key s1 v s2 : b <> 101%N -> counted (b :: t) key s1 -> (exists ns, text_of ns key) ->
    value s1 v s2 -> entries_hang s2 -> entries_hang (b :: t).
