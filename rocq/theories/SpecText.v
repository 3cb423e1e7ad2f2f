(** SpecText: UTF-8 (RFC 3629) and JSON (RFC 8259) as grammars, and what a JSON text says about a
    torrent. No helpers of the model. *)
From Verif Require Import Base ModelTorrent SpecBencode SpecTorrent.

(** ** UTF-8 *)

Definition scalar (n : N) : Prop := (n < 1114112 /\ ~ (55296 <= n <= 57343))%N.
(** RFC 3629, 3: the bytes of a character; the shortest form that fits, and no surrogates. *)
Inductive utf8 : N -> bytes -> Prop :=
| utf8_1 n : (n < 128)%N -> utf8 n [n]
| utf8_2 x y : (x < 32 -> y < 64 -> 128 <= 64 * x + y -> utf8 (64 * x + y) [192 + x; 128 + y])%N
| utf8_3 x y z : (x < 16 -> y < 64 -> z < 64 -> 2048 <= 4096 * x + 64 * y + z ->
    scalar (4096 * x + 64 * y + z) -> utf8 (4096 * x + 64 * y + z) [224 + x; 128 + y; 128 + z])%N
| utf8_4 x y z w : (x < 8 -> y < 64 -> z < 64 -> w < 64 -> 65536 <= 262144 * x + 4096 * y + 64 * z + w ->
    scalar (262144 * x + 4096 * y + 64 * z + w) ->
    utf8 (262144 * x + 4096 * y + 64 * z + w) [240 + x; 128 + y; 128 + z; 128 + w])%N.
(** The bytes of a text. *)
Inductive text_of : list N -> bytes -> Prop :=
| to_nil : text_of [] []
| to_cons n ns b t : utf8 n b -> text_of ns t -> text_of (n :: ns) (b ++ t).

(** ** JSON *)

Definition spaces (w : bytes) : Prop := Forall (fun b => In b [32; 10; 9; 13]%N) w.

(** RFC 8259, 7: strings. What may stand between the quotes. *)
Definition escapes : list (N * N) :=
  [(34, 34); (92, 92); (47, 47); (98, 8); (102, 12); (110, 10); (114, 13); (116, 9)]%N.
Definition hex_four (h : bytes) (n : N) : Prop :=
  exists a b c d x y z w, h = [a; b; c; d] /\ hex_value a = Some x /\ hex_value b = Some y /\ hex_value c = Some z /\
    hex_value d = Some w /\ n = (4096 * x + 256 * y + 16 * z + w)%N.
Inductive string_source : bytes -> Prop :=
| ss_nil : string_source []
| ss_plain b t : (32 <= b)%N -> b <> 34%N -> b <> 92%N -> string_source t -> string_source (b :: t)
| ss_escape e c t : In (e, c) escapes -> string_source t -> string_source (92%N :: e :: t)
| ss_unicode h n t : hex_four h n -> string_source t -> string_source (92%N :: 117%N :: h ++ t).
(** The text that is meant; there is none if a surrogate stands alone. *)
Inductive meaning : bytes -> bytes -> Prop :=
| me_nil : meaning [] []
| me_plain b t s : (32 <= b)%N -> b <> 34%N -> b <> 92%N -> meaning t s -> meaning (b :: t) (b :: s)
| me_escape e c t s : In (e, c) escapes -> meaning t s -> meaning (92%N :: e :: t) (c :: s)
| me_unicode h n u t s : hex_four h n -> utf8 n u -> meaning t s -> meaning (92%N :: 117%N :: h ++ t) (u ++ s)
| me_pair h g x y u t s : hex_four h (55296 + x) -> (x < 1024)%N -> hex_four g (56320 + y) -> (y < 1024)%N ->
    utf8 (65536 + 1024 * x + y) u -> meaning t s -> meaning (92%N :: 117%N :: h ++ 92%N :: 117%N :: g ++ t) (u ++ s).

(** RFC 8259, 6: numbers. *)
Definition digits (d : bytes) : Prop := Forall digit d /\ d <> [].
Definition int_part (s : bytes) : Prop := digits s /\ (forall t, s = 48%N :: t -> t = []).
Definition frac_part (s : bytes) : Prop := s = [] \/ exists d, digits d /\ s = 46%N :: d.
Definition exp_part (s : bytes) : Prop :=
  s = [] \/ exists e sign d, In e [101; 69]%N /\ In sign [[]; [43]; [45]]%N /\ digits d /\ s = e :: sign ++ d.
Definition number (s : bytes) : Prop :=
  exists m i f e, In m [[]; [45]]%N /\ int_part i /\ frac_part f /\ exp_part e /\ s = m ++ i ++ f ++ e.

(** Values; strings, keys and numbers as they are written. *)
Inductive value :=
| VNull | VBool (b : bool) | VNumber (s : bytes) | VString (s : bytes) | VArray (l : list value) | VObject (l : list (bytes * value)).
Inductive json_text : bytes -> value -> Prop :=
| jt_null : json_text (s2b "null") VNull
| jt_true : json_text (s2b "true") (VBool true)
| jt_false : json_text (s2b "false") (VBool false)
| jt_number s : number s -> json_text s (VNumber s)
| jt_string s : string_source s -> json_text (34%N :: s ++ [34%N]) (VString s)
| jt_no_elements w : spaces w -> json_text (91%N :: w ++ [93%N]) (VArray [])
| jt_array t l : elements t l -> json_text (91%N :: t ++ [93%N]) (VArray l)
| jt_no_members w : spaces w -> json_text (123%N :: w ++ [125%N]) (VObject [])
| jt_object t l : members t l -> json_text (123%N :: t ++ [125%N]) (VObject l)
with elements : bytes -> list value -> Prop :=
| el_last w1 t w2 v : spaces w1 -> json_text t v -> spaces w2 -> elements (w1 ++ t ++ w2) [v]
| el_more w1 t w2 v r l : spaces w1 -> json_text t v -> spaces w2 -> elements r l ->
    elements (w1 ++ t ++ w2 ++ 44%N :: r) (v :: l)
with members : bytes -> list (bytes * value) -> Prop :=
| mb_last w1 k w2 w3 t w4 v : spaces w1 -> string_source k -> spaces w2 -> spaces w3 -> json_text t v -> spaces w4 ->
    members (w1 ++ 34%N :: k ++ 34%N :: w2 ++ 58%N :: w3 ++ t ++ w4) [(k, v)]
| mb_more w1 k w2 w3 t w4 v r l : spaces w1 -> string_source k -> spaces w2 -> spaces w3 -> json_text t v -> spaces w4 -> members r l ->
    members (w1 ++ 34%N :: k ++ 34%N :: w2 ++ 58%N :: w3 ++ t ++ w4 ++ 44%N :: r) ((k, v) :: l).

(** ** What a value says *)

Definition says_number (v : value) (n : N) : Prop := v = VNumber (decimal n) /\ (n < 2 ^ 64)%N.
Definition says_byte (v : value) (n : N) : Prop := v = VNumber (decimal n) /\ (n < 256)%N.
Definition says_string (v : value) (s : bytes) : Prop := exists src, v = VString src /\ meaning src s.
Definition says_list {A} (P : value -> A -> Prop) (v : value) (l : list A) : Prop := exists vs, v = VArray vs /\ Forall2 P vs l.
Definition says_option {A} (P : value -> A -> Prop) (v : value) (x : option A) : Prop :=
  match x with Some a => v <> VNull /\ P v a | None => v = VNull end.

(** An object all of whose keys are texts; a key that occurs exactly once; a key that does not occur. *)
Definition readable (l : list (bytes * value)) : Prop := Forall (fun e => exists s, meaning (fst e) s) l.
Definition absent (k : bytes) (l : list (bytes * value)) : Prop := Forall (fun e => ~ meaning (fst e) k) l.
Definition field_is (k : bytes) (l : list (bytes * value)) (v : value) : Prop :=
  exists l1 src l2, l = l1 ++ (src, v) :: l2 /\ meaning src k /\ absent k l1 /\ absent k l2.
Definition has {A} (P : value -> A -> Prop) (k : bytes) (l : list (bytes * value)) (a : A) : Prop :=
  exists v, field_is k l v /\ P v a.
Definition may_have {A} (P : value -> A -> Prop) (k : bytes) (l : list (bytes * value)) (x : option A) : Prop :=
  (absent k l /\ x = None) \/ exists v, field_is k l v /\ says_option P v x.

(** A file entry, and a torrent description: an object with the named fields (others are ignored), or
    the bare fields in an array. *)
Definition says_file (v : value) (f : file) : Prop :=
  (exists l, v = VObject l /\ readable l /\ has (says_list says_string) (s2b "path") l (f_path f) /\
     has says_number (s2b "length") l (f_length f)) \/
  (exists a b, v = VArray [a; b] /\ says_list says_string a (f_path f) /\ says_number b (f_length f)).
Definition says_info (v : value) (i : info) : Prop :=
  (exists l, v = VObject l /\ readable l /\
     may_have (says_list says_file) (s2b "files") l (i_files i) /\ may_have says_number (s2b "length") l (i_length i) /\
     has says_string (s2b "name") l (i_name i) /\ has says_number (s2b "piece_length") l (i_piece_length i) /\
     has (says_list says_byte) (s2b "pieces") l (i_pieces i)) \/
  (exists a b c d e, v = VArray [a; b; c; d; e] /\
     says_option (says_list says_file) a (i_files i) /\ says_option says_number b (i_length i) /\
     says_string c (i_name i) /\ says_number d (i_piece_length i) /\ says_list says_byte e (i_pieces i)).
(** The text [t] is JSON and describes the torrent [i]. *)
Definition describes_torrent (t : bytes) (i : info) : Prop :=
  exists w1 doc w2 v, t = w1 ++ doc ++ w2 /\ spaces w1 /\ spaces w2 /\ json_text doc v /\ says_info v i.
