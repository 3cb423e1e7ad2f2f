(** ModelBencode: src/bencode/{metainfo,decode,encode}.rs *)
From Verif Require Import Base Utf8.

(** metainfo.rs 5-12: enum Metainfo. The dictionary is an association list (see Base, [hmap]). *)
Inductive metainfo : Type :=
| MInteger (n : N)
| MList (l : list metainfo)
| MString (s : bytes)
| MDictionary (d : list (bytes * metainfo))
| MNothing.

(** metainfo.rs 14-29: Display, used only inside error values. *)
Inductive mkind := KInteger | KList | KString | KDictionary | KNothing.
Definition kind_of (m : metainfo) : mkind :=
  match m with
  | MInteger _ => KInteger
  | MList _ => KList
  | MString _ => KString
  | MDictionary _ => KDictionary
  | MNothing => KNothing
  end.

(** metainfo.rs 31-39: enum MetainfoError (the Utf8Error payload is dropped). *)
Inductive metainfo_error : Type :=
| BadMetainfoMatch (expected found : mkind)
| Utf8ConversionError
| NoKeyInDictionary (key : bytes).

(** metainfo.rs 42-50 *)
Definition get_bytes_content (m : metainfo) : result bytes metainfo_error :=
  match m with
  | MString v => Ok v
  | _ => Err (BadMetainfoMatch KString (kind_of m))
  end.

(** metainfo.rs 52-60 *)
Definition get_string_content (m : metainfo) : result bytes metainfo_error :=
  match m with
  | MString v => if utf8_valid v then Ok v else Err Utf8ConversionError
  | _ => Err (BadMetainfoMatch KString (kind_of m))
  end.

(** metainfo.rs 62-70 *)
Definition get_integer_content (m : metainfo) : result N metainfo_error :=
  match m with
  | MInteger v => Ok v
  | _ => Err (BadMetainfoMatch KInteger (kind_of m))
  end.

(** metainfo.rs 72-80 *)
Definition get_list_content (m : metainfo) : result (list metainfo) metainfo_error :=
  match m with
  | MList v => Ok v
  | _ => Err (BadMetainfoMatch KList (kind_of m))
  end.

(** metainfo.rs 82-90 *)
Definition get_dict_content (m : metainfo) : result (list (bytes * metainfo)) metainfo_error :=
  match m with
  | MDictionary v => Ok v
  | _ => Err (BadMetainfoMatch KDictionary (kind_of m))
  end.

(** metainfo.rs 92-97 *)
Definition get_value_from_dict (m : metainfo) (key : bytes) : result metainfo metainfo_error :=
  rbind (get_dict_content m) (fun d =>
    match hm_get d key with
    | Some v => Ok v
    | None => Err (NoKeyInDictionary key)
    end).

(** metainfo.rs 99-104 *)
Definition get_bytes_from_dict (m : metainfo) (key : bytes) : result bytes metainfo_error :=
  rbind (get_dict_content m) (fun d =>
    match hm_get d key with
    | Some v => get_bytes_content v
    | None => Err (NoKeyInDictionary key)
    end).

(** metainfo.rs 106-111 *)
Definition get_string_from_dict (m : metainfo) (key : bytes) : result bytes metainfo_error :=
  rbind (get_dict_content m) (fun d =>
    match hm_get d key with
    | Some v => get_string_content v
    | None => Err (NoKeyInDictionary key)
    end).

(** metainfo.rs 113-118 *)
Definition get_integer_from_dict (m : metainfo) (key : bytes) : result N metainfo_error :=
  rbind (get_dict_content m) (fun d =>
    match hm_get d key with
    | Some v => get_integer_content v
    | None => Err (NoKeyInDictionary key)
    end).

(** metainfo.rs 120-125 *)
Definition get_list_from_dict (m : metainfo) (key : bytes)
  : result (list metainfo) metainfo_error :=
  rbind (get_dict_content m) (fun d =>
    match hm_get d key with
    | Some v => get_list_content v
    | None => Err (NoKeyInDictionary key)
    end).

(** decode.rs 13-23: enum DecoderError. *)
Inductive decoder_error : Type :=
| BadNumberFromString (pos : nat)
| BadNumberDecode (digits : bytes)
| NoStringFound (pos : nat)
| BadStringFromBytes (pos : nat).

(** decode.rs 8-11: struct Decoder { current, contents }. The model passes [contents] as [c] and
    threads [current] as [cur]. After an [Err] the cursor is not modelled (no caller looks at it). *)

(** decode.rs 38-40: get_current_byte; indexing panics out of bounds. *)
Definition get_current_byte (c : bytes) (cur : nat) : outcome N := index c cur.

(** decode.rs 44-46: the while loop of get_consecutive_digits, run on [contents[cur..]];
    reaching the end of the input makes get_current_byte panic. *)
Fixpoint scan_digits (rest : bytes) (cur : nat) : outcome nat :=
  match rest with
  | [] => Panic
  | b :: t => if is_digit b then scan_digits t (S cur) else Ret cur
  end.

(** decode.rs 42-70: get_consecutive_digits. The scanned bytes are ASCII digits, so from_utf8
    succeeds and the BadNumberFromString branch (49-58) is unreachable; it is kept. *)
Definition get_consecutive_digits (c : bytes) (cur : nat)
  : outcome (result (N * nat) decoder_error) :=
  e <- scan_digits (skipn cur c) cur ;;
  digits <- slice c cur e ;;
  if utf8_valid digits then
    match parse_usize digits with
    | Some v => Ret (Ok (v, e))
    | None => Ret (Err (BadNumberDecode digits))
    end
  else Ret (Err (BadNumberFromString e)).

(** decode.rs 72-81: parse_integer. Lines 76-79 advance whatever the next byte is. *)
Definition parse_integer (c : bytes) (cur : nat)
  : outcome (result (metainfo * nat) decoder_error) :=
  '(v, e) <-? get_consecutive_digits c (S cur) ;;
  Ret (Ok (MInteger v, S e)).

(** decode.rs 83-91: parse_string. The byte after the digits is skipped unchecked. The slice
    [current..current + integer] panics when it leaves the contents; if [current + integer]
    overflows it panics too (debug: the addition; release: the wrapped end is below the start). *)
Definition parse_string (c : bytes) (cur : nat)
  : outcome (result (bytes * nat) decoder_error) :=
  '(n, e) <-? get_consecutive_digits c cur ;;
  let cur2 := S e in
  if (N.of_nat cur2 + n <=? lenN c)%N then
    b <- slice c cur2 (cur2 + N.to_nat n) ;;
    Ret (Ok (b, (cur2 + N.to_nat n)%nat))
  else Panic.

(** decode.rs 125-136 decode; 93-103 parse_list with its loop; 105-123 parse_dictionary with its
    loop. One unit of fuel per call of decode and per loop iteration. The byte constants are
    i=105, l=108, d=100, e=101, '1'..'9'=49..57. parse_string always yields Metainfo::String, so
    the NoStringFound branch (114-116) is unreachable and not represented. *)
Fixpoint decode_f (fuel : nat) (c : bytes) (cur : nat) {struct fuel}
  : outcome (result (metainfo * nat) decoder_error) :=
  match fuel with
  | O => OutOfFuel
  | S f =>
    match nth_error c cur with
    | None => Ret (Ok (MNothing, cur))
    | Some b =>
      if (b =? 105)%N then parse_integer c cur
      else if (b =? 108)%N then list_f f c (S cur) []
      else if (b =? 100)%N then dict_f f c (S cur) []
      else if (49 <=? b)%N && (b <=? 57)%N then
        '(s, e) <-? parse_string c cur ;; Ret (Ok (MString s, e))
      else Ret (Ok (MNothing, cur))
    end
  end
with list_f (fuel : nat) (c : bytes) (cur : nat) (acc : list metainfo) {struct fuel}
  : outcome (result (metainfo * nat) decoder_error) :=
  match fuel with
  | O => OutOfFuel
  | S f =>
    b <- get_current_byte c cur ;;
    if (b =? 101)%N then Ret (Ok (MList acc, S cur))
    else '(v, cur') <-? decode_f f c cur ;; list_f f c cur' (acc ++ [v])
  end
with dict_f (fuel : nat) (c : bytes) (cur : nat) (acc : list (bytes * metainfo)) {struct fuel}
  : outcome (result (metainfo * nat) decoder_error) :=
  match fuel with
  | O => OutOfFuel
  | S f =>
    b <- get_current_byte c cur ;;
    if (b =? 101)%N then Ret (Ok (MDictionary acc, S cur))
    else
      '(key, cur1) <-? parse_string c cur ;;
      if utf8_valid key then
        '(v, cur2) <-? decode_f f c cur1 ;; dict_f f c cur2 (hm_insert acc key v)
      else Ret (Err (BadStringFromBytes cur1))
  end.

(** decode.rs 26-31 (init) followed by 125-141 (decode, get_total_parsed_bytes): the decoded value
    and the final cursor. The fuel is enough for every terminating run and [OutOfFuel] means that
    the real loop never ends (property C03). *)
Definition decode_at (c : bytes) (cur : nat) : outcome (result (metainfo * nat) decoder_error) :=
  decode_f (2 * List.length c + 2) c cur.
Definition decode (c : bytes) : outcome (result (metainfo * nat) decoder_error) := decode_at c 0.

(** ** encode.rs *)

(** encode.rs 7-21: Encode for String and &str: the length prefix is chars().count(). *)
Definition enc_string (s : bytes) : bytes := dec (chars_count s) ++ [58%N] ++ s.

(** encode.rs 23-27: Encode for usize. *)
Definition enc_usize (n : N) : bytes := [105%N] ++ dec n ++ [101%N].

(** encode.rs 29-34: Encode for Vec<u8>. *)
Definition enc_bytes (s : bytes) : bytes := dec (lenN s) ++ [58%N] ++ s.

(** encode.rs 36-45: Encode for Vec<T>. *)
Definition enc_list {A} (enc : A -> bytes) (l : list A) : bytes :=
  fold_left (fun acc el => acc ++ enc el) l [108%N] ++ [101%N].

(** [sort_by] on keys, encode.rs 50 (a stable sort; insertion sort here). *)
Fixpoint insert_sorted {V} (kv : bytes * V) (l : list (bytes * V)) : list (bytes * V) :=
  match l with
  | [] => [kv]
  | kv' :: t => if bytes_leb (fst kv) (fst kv') then kv :: l else kv' :: insert_sorted kv t
  end.
Definition sort_by_key {V} (l : list (bytes * V)) : list (bytes * V) := fold_right insert_sorted [] l.

(** encode.rs 47-60: Encode for HashMap<String, T>; [m] lists the entries in iteration order. *)
Definition enc_map {V} (enc : V -> bytes) (m : hmap V) : bytes :=
  fold_left (fun acc kv => acc ++ enc_string (fst kv) ++ enc (snd kv)) (sort_by_key m) [100%N]
  ++ [101%N].

(** encode.rs 62-69: Encode for Option<T>. *)
Definition enc_option {A} (enc : A -> bytes) (o : option A) : bytes :=
  match o with
  | Some v => enc v
  | None => []
  end.

(** encode.rs 71-79: encode_dict_entry; [encoded] is [value.encode()]. *)
Definition encode_dict_entry (key : bytes) (encoded : bytes) : bytes :=
  match encoded, key with
  | [], _ => []
  | _, [] => []
  | _, _ => enc_string key ++ encoded
  end.
