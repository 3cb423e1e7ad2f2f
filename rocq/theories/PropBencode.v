(** PropBencode: properties C01-C08 *)
From Coq Require Import Permutation Sorted.
From Verif Require Import Base Utf8 SpecBencode ModelBencode ProofBencode ProofBencode2.

(** Text: a byte string that is valid UTF-8. *)
Definition is_text (s : bytes) : Prop := utf8_valid s = true.

(** Tactics for the examples only. *)
Ltac show_decodable :=
  repeat first
    [ apply DInt; reflexivity | apply DStr; [discriminate | reflexivity] | apply DList | apply DDict
    | apply Forall_nil | apply Forall_cons | (split; reflexivity) | progress cbn [fst snd] ].
Ltac show_nodup :=
  cbn [map fst snd];
  repeat (constructor; [cbn; intuition discriminate|]); constructor.
Ltac show_distinct :=
  repeat first
    [ apply UInt | apply UStr | apply UList | (apply UDict; [solve [show_nodup] | ])
    | apply Forall_nil | apply Forall_cons | progress cbn [fst snd] ].

(** C01: decoding inverts canonical encoding, whatever follows the value. *)
Theorem C01_decode_inverts_canonical : forall v suf, decodable is_text v -> distinct_keys v ->
  decode (benc v ++ suf) = Ret (Ok (as_metainfo v, List.length (benc v))).
Proof. exact c01. Qed.
Print Assumptions C01_decode_inverts_canonical.

(** C01: the guard on empty strings is needed. *)
Theorem C01_empty_string_refuted : exists v, distinct_keys v /\
  decode (benc v) <> Ret (Ok (as_metainfo v, List.length (benc v))).
Proof. exists (BStr []). split; [constructor|]. vm_compute. congruence. Qed.
Print Assumptions C01_empty_string_refuted.

(** ... and in a dictionary an empty value silently corrupts the result: [{a: "", c: 1}] encodes to
    [d1:a0:1:ci1ee] and the decoder reports [{a: nothing, "": "c"}] and aborts on the rest. *)
Example C01_empty_string_in_dictionary :
  let v := BDict [(s2b "a", BStr []); (s2b "c", BInt 1)] in
  distinct_keys v /\ benc v = s2b "d1:a0:1:ci1ee" /\
  decode (benc v) = Ret (Err (BadNumberDecode [])).
Proof.
  cbv zeta; split; [show_distinct|split; vm_compute; reflexivity].
Qed.

Example C01_example :
  let v := BDict [(s2b "a", BList [BInt 7; BStr (s2b "xyz"); BList []]); (s2b "b", BDict [])] in
  decodable is_text v /\ distinct_keys v /\
  decode (benc v ++ s2b "junk") = Ret (Ok (as_metainfo v, 22%nat)).
Proof.
  cbv zeta; split; [show_decodable|split; [show_distinct|vm_compute; reflexivity]].
Qed.

(** C02: the cursor stays inside the input, and what follows the consumed bytes is irrelevant. *)
Theorem C02_decode_locality : forall c v n, decode c = Ret (Ok (v, n)) ->
  (n <= List.length c)%nat /\
  ((0 < n)%nat -> forall suf, decode (firstn n c ++ suf) = Ret (Ok (v, n))).
Proof. exact decode_locality. Qed.
Print Assumptions C02_decode_locality.

Example C02_example : decode (s2b "li1e3:abcezzz") = Ret (Ok (MList [MInteger 1; MString (s2b "abc")], 10%nat)).
Proof. vm_compute. reflexivity. Qed.

(** C03: within [2n+2] nested calls and loop rounds the outcome is settled, or there is none. *)
Theorem C03_decode_decided : forall c,
  (exists r, r <> OutOfFuel /\ forall fuel, (2 * List.length c + 2 <= fuel)%nat -> decode_f fuel c 0 = r)
  \/ (forall fuel, decode_f fuel c 0 = OutOfFuel).
Proof. exact c03. Qed.
Print Assumptions C03_decode_decided.

(** C03: a list item that does not start like a value hangs the decoder. *)
Theorem C03_list_hangs : forall l b rest,
  Forall (decodable is_text) l ->
  b <> 101%N -> ~ (b = 105 \/ b = 108 \/ b = 100 \/ (49 <= b <= 57))%N ->
  forall fuel, decode_f fuel (s2b "l" ++ List.concat (map benc l) ++ b :: rest) 0 = OutOfFuel.
Proof. exact (fun l b rest D N1 N2 fuel => list_hangs l b rest fuel D N1 N2). Qed.
Print Assumptions C03_list_hangs.

(** C03: only lists can hang. *)
Theorem C03_no_list_no_hang : forall c, ~ In 108%N c -> decode c <> OutOfFuel.
Proof. exact no_list_no_hang. Qed.
Print Assumptions C03_no_list_no_hang.

Example C03_example : exists rest,
  benc (BList [BInt 1; BStr []]) = s2b "l" ++ List.concat (map benc [BInt 1]) ++ 48%N :: rest /\
  decode (benc (BList [BInt 1; BStr []])) = OutOfFuel.
Proof. exists (s2b ":e"). split; vm_compute; reflexivity. Qed.

(** C04: a truncated value is never accepted. *)
Theorem C04_truncated_panics : forall v p q, decodable is_text v -> benc v = p ++ q -> p <> [] -> q <> [] ->
  decode p = Panic.
Proof. exact decode_trunc. Qed.
Print Assumptions C04_truncated_panics.

Example C04_example : benc (BList [BInt 12; BStr (s2b "ab")]) = s2b "li12e2:a" ++ s2b "be".
Proof. vm_compute. reflexivity. Qed.

(** C05: integers. *)
Theorem C05_integer_range : forall ds b rest, Forall digit ds -> ~ digit b ->
  decode (s2b "i" ++ ds ++ b :: rest)
  = if (match ds with [] => false | _ => true end) && (numeral ds <? 2 ^ 64)%N
    then Ret (Ok (MInteger (numeral ds), (List.length ds + 2)%nat))
    else Ret (Err (BadNumberDecode ds)).
Proof. exact decode_integer. Qed.
Print Assumptions C05_integer_range.

(** C05: string length prefixes. *)
Theorem C05_length_prefix_range : forall ds b rest, Forall digit ds -> ~ digit b ->
  (exists d t, ds = d :: t /\ d <> 48%N) ->
  decode (ds ++ b :: rest)
  = if (numeral ds <? 2 ^ 64)%N then
      if (numeral ds <=? N.of_nat (List.length rest))%N
      then Ret (Ok (MString (firstn (N.to_nat (numeral ds)) rest),
                    (List.length ds + 1 + N.to_nat (numeral ds))%nat))
      else Panic
    else Ret (Err (BadNumberDecode ds)).
Proof. exact decode_string_prefix. Qed.
Print Assumptions C05_length_prefix_range.

Example C05_example :
  decode (s2b "i18446744073709551615e") = Ret (Ok (MInteger 18446744073709551615, 22%nat)) /\
  decode (s2b "i18446744073709551616e") = Ret (Err (BadNumberDecode (s2b "18446744073709551616"))) /\
  decode (s2b "i-1e") = Ret (Err (BadNumberDecode [])) /\
  decode (s2b "i007e") = Ret (Ok (MInteger 7, 5%nat)).
Proof. vm_compute. auto. Qed.

(** C06: lookups return the last binding, with its type checked. *)
Theorem C06_lookup_last_binding : forall es suf,
  decodable is_text (BDict es) -> Forall (fun kv => distinct_keys (snd kv)) es ->
  exists m n, decode (benc (BDict es) ++ suf) = Ret (Ok (m, n)) /\
  forall k,
    (last_binding es k = None ->
       get_value_from_dict m k = Err (NoKeyInDictionary k) /\
       get_integer_from_dict m k = Err (NoKeyInDictionary k) /\
       get_bytes_from_dict m k = Err (NoKeyInDictionary k) /\
       get_string_from_dict m k = Err (NoKeyInDictionary k) /\
       get_list_from_dict m k = Err (NoKeyInDictionary k)) /\
    (forall v, last_binding es k = Some v ->
       get_value_from_dict m k = Ok (as_metainfo v) /\
       (forall i, get_integer_from_dict m k = Ok i <-> v = BInt i) /\
       (forall s, get_bytes_from_dict m k = Ok s <-> v = BStr s) /\
       (forall s, get_string_from_dict m k = Ok s <-> v = BStr s /\ is_text s) /\
       (forall l, get_list_from_dict m k = Ok l <-> exists vs, v = BList vs /\ l = map as_metainfo vs)).
Proof. exact c06. Qed.
Print Assumptions C06_lookup_last_binding.

Example C06_example :
  let es := [(s2b "k", BInt 1); (s2b "j", BInt 2); (s2b "k", BStr (s2b "v"))] in
  decodable is_text (BDict es) /\ Forall (fun kv => distinct_keys (snd kv)) es /\
  last_binding es (s2b "k") = Some (BStr (s2b "v")).
Proof.
  cbv zeta; split; [show_decodable|split; [show_distinct|vm_compute; reflexivity]].
Qed.

(** C07: encoders of byte vectors, integers and lists are canonical. *)
Theorem C07_encoders_canonical :
  (forall s, enc_bytes s = benc (BStr s)) /\
  (forall n, enc_usize n = benc (BInt n)) /\
  (forall A (enc : A -> bytes) (val : A -> bval) l,
     (forall x, In x l -> enc x = benc (val x)) -> enc_list enc l = benc (BList (map val l))).
Proof. exact (conj enc_bytes_canonical (conj enc_usize_canonical enc_list_canonical)). Qed.
Print Assumptions C07_encoders_canonical.

(** C07: text is encoded canonically exactly if it is ASCII. *)
Theorem C07_string_canonical_iff_ascii : forall s, is_text s ->
  ((exists v, enc_string s = benc v) <-> ascii s).
Proof. exact c07_string. Qed.
Print Assumptions C07_string_canonical_iff_ascii.

Theorem C07_ascii_string : forall s, ascii s -> enc_string s = benc (BStr s).
Proof. exact enc_string_ascii. Qed.
Print Assumptions C07_ascii_string.

Example C07_example : is_text [99; 195; 169]%N /\ enc_string [99; 195; 169]%N = (s2b "2:c" ++ [195; 169]%N)
  /\ ascii (s2b "name") /\ enc_list enc_usize [1; 2]%N = s2b "li1ei2ee".
Proof. repeat split; try (vm_compute; reflexivity). repeat constructor. Qed.

(** C08: map encoding is independent of the iteration order. *)
Theorem C08_order_independent : forall V (enc : V -> bytes) m m', NoDup (map fst m) -> Permutation m m' ->
  enc_map enc m = enc_map enc m'.
Proof. exact c08_order. Qed.
Print Assumptions C08_order_independent.

(** C08: keys come in strictly increasing order and the result is canonical. *)
Theorem C08_map_canonical : forall V (enc : V -> bytes) (val : V -> bval) m,
  NoDup (map fst m) -> Forall (fun kv => ascii (fst kv)) m ->
  (forall kv, In kv m -> enc (snd kv) = benc (val (snd kv))) ->
  exists m', Permutation m m' /\ StronglySorted lex_lt (map fst m') /\
    enc_map enc m = benc (BDict (map (fun kv => (fst kv, val (snd kv))) m')).
Proof. exact enc_map_canonical. Qed.
Print Assumptions C08_map_canonical.

(** C08: it decodes back to the same map. *)
Theorem C08_map_round_trip : forall V (enc : V -> bytes) (val : V -> bval) m suf,
  NoDup (map fst m) -> Forall (fun kv => ascii (fst kv) /\ (lenN (fst kv) < 2 ^ 64)%N) m ->
  (forall kv, In kv m -> enc (snd kv) = benc (val (snd kv)) /\
                         decodable is_text (val (snd kv)) /\ distinct_keys (val (snd kv))) ->
  exists m', Permutation m m' /\
    decode (enc_map enc m ++ suf)
    = Ret (Ok (MDictionary (map (fun kv => (fst kv, as_metainfo (val (snd kv)))) m'),
               List.length (enc_map enc m))).
Proof. exact c08_decode. Qed.
Print Assumptions C08_map_round_trip.

Example C08_example :
  let m := [(s2b "piece", 3%N); (s2b "msg_type", 0%N)] in
  NoDup (map fst m) /\ Forall (fun kv => ascii (fst kv) /\ (lenN (fst kv) < 2 ^ 64)%N) m /\
  enc_map enc_usize m = s2b "d8:msg_typei0e5:piecei3ee" /\ decodable is_text (BInt 3).
Proof.
  split; [|split; [|split; [vm_compute; reflexivity|constructor; reflexivity]]].
  - show_nodup.
  - repeat (constructor; [split; [repeat constructor|vm_compute; reflexivity]|]). constructor.
Qed.
