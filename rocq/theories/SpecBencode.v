(** SpecBencode: canonical bencode, written without any helper of the model. *)
From Coq Require Import DecimalString.
From Verif Require Import Base.

(** A bencode value (BEP 3), with unsigned integers. *)
Inductive bval : Type :=
| BInt (n : N)
| BStr (s : bytes)
| BList (l : list bval)
| BDict (d : list (bytes * bval)).

(** Decimal text of a number, taken from Coq's standard library of decimal numerals. *)
Definition decimal (n : N) : bytes := s2b (NilEmpty.string_of_uint (N.to_uint n)).

(** A byte string: length, colon, bytes. *)
Definition bstr (s : bytes) : bytes := decimal (N.of_nat (List.length s)) ++ s2b ":" ++ s.

(** Canonical encoding. *)
Fixpoint benc (v : bval) : bytes :=
  match v with
  | BInt n => s2b "i" ++ decimal n ++ s2b "e"
  | BStr s => bstr s
  | BList l => s2b "l" ++ List.concat (map benc l) ++ s2b "e"
  | BDict d => s2b "d" ++ List.concat (map (fun kv => bstr (fst kv) ++ benc (snd kv)) d) ++ s2b "e"
  end.

(** Positional value of a digit string. *)
Fixpoint numeral (l : bytes) : N :=
  match l with
  | [] => 0
  | d :: t => (d - 48) * 10 ^ N.of_nat (List.length t) + numeral t
  end%N.
Definition digit (b : N) : Prop := (48 <= b <= 57)%N.

(** The last value bound to a key in a sequence of entries. *)
Definition last_binding {V} (es : list (bytes * V)) (k : bytes) : option V :=
  option_map snd (find (fun kv : bytes * V => if list_eq_dec N.eq_dec (fst kv) k then true else false) (rev es)).

(** Strict lexicographic order on byte strings. *)
Fixpoint lex_lt (a b : bytes) : Prop :=
  match a, b with
  | _, [] => False
  | [], _ :: _ => True
  | x :: a', y :: b' => (x < y)%N \/ (x = y /\ lex_lt a' b')
  end.

(** The numbers and lengths of a value fit a 64-bit machine, dictionary keys are text, and no
    string in value position is empty. *)
Inductive decodable (is_text : bytes -> Prop) : bval -> Prop :=
| DInt n : (n < 2 ^ 64)%N -> decodable is_text (BInt n)
| DStr s : s <> [] -> (N.of_nat (List.length s) < 2 ^ 64)%N -> decodable is_text (BStr s)
| DList l : Forall (decodable is_text) l -> decodable is_text (BList l)
| DDict d : Forall (fun kv => is_text (fst kv) /\ (N.of_nat (List.length (fst kv)) < 2 ^ 64)%N) d ->
            Forall (fun kv => decodable is_text (snd kv)) d -> decodable is_text (BDict d).

(** The keys of every dictionary inside a value are pairwise distinct. *)
Inductive distinct_keys : bval -> Prop :=
| UInt n : distinct_keys (BInt n)
| UStr s : distinct_keys (BStr s)
| UList l : Forall distinct_keys l -> distinct_keys (BList l)
| UDict d : NoDup (map fst d) -> Forall (fun kv => distinct_keys (snd kv)) d -> distinct_keys (BDict d).

(** The decoded value a spec value stands for. *)
From Verif Require Import ModelBencode.
Fixpoint as_metainfo (v : bval) : metainfo :=
  match v with
  | BInt n => MInteger n
  | BStr s => MString s
  | BList l => MList (map as_metainfo l)
  | BDict d => MDictionary (map (fun kv => (fst kv, as_metainfo (snd kv))) d)
  end.
