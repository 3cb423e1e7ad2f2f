(** ModelCache: the copy of the torrent description kept under ./downloads
    (info.rs 60-90, actors/torrent.rs 156-171), with the part of serde_json it relies on. *)
From Verif Require Import Base Utf8 ModelBencode ModelTorrent ModelWriter ModelTracker ModelStream ModelPeer.

(** ** serde_json 1.0: compact output ([serde_json::to_writer], info.rs 81). Library code, written
    from its documentation: strings escape the quote, the backslash and bytes below 32; a missing
    [Option] is null; a [Vec] is an array; the fields of a derived struct come in declaration order. *)

Definition hex_lower (d : N) : N := if (d <? 10)%N then (48 + d)%N else (87 + d)%N.

Definition js_escape (b : N) : bytes :=
  if (b =? 34)%N then [92; 34]%N
  else if (b =? 92)%N then [92; 92]%N
  else if (b =? 8)%N then [92; 98]%N
  else if (b =? 9)%N then [92; 116]%N
  else if (b =? 10)%N then [92; 110]%N
  else if (b =? 12)%N then [92; 102]%N
  else if (b =? 13)%N then [92; 114]%N
  else if (b <? 32)%N then [92; 117; 48; 48]%N ++ [hex_lower (b / 16); hex_lower (b mod 16)]
  else [b].

Definition js_string (s : bytes) : bytes := [34%N] ++ flat_map js_escape s ++ [34%N].

Fixpoint js_commas (l : list bytes) : bytes :=
  match l with
  | [] => []
  | [x] => x
  | x :: t => x ++ [44%N] ++ js_commas t
  end.
Definition js_array (l : list bytes) : bytes := [91%N] ++ js_commas l ++ [93%N].
Definition js_member (k : bytes) (v : bytes) : bytes := js_string k ++ [58%N] ++ v.
Definition js_object (l : list bytes) : bytes := [123%N] ++ js_commas l ++ [125%N].
Definition js_option {A} (f : A -> bytes) (o : option A) : bytes :=
  match o with Some x => f x | None => s2b "null" end.

(** file.rs 6-10: [derive(Serialize)] for File. *)
Definition js_file (f : file) : bytes :=
  js_object [js_member (s2b "path") (js_array (map js_string (f_path f)));
             js_member (s2b "length") (dec (f_length f))].

(** info.rs 13-20: [derive(Serialize)] for Info. *)
Definition js_info (i : info) : bytes :=
  js_object [js_member (s2b "files") (js_option (fun l => js_array (map js_file l)) (i_files i));
             js_member (s2b "length") (js_option dec (i_length i));
             js_member (s2b "name") (js_string (i_name i));
             js_member (s2b "piece_length") (dec (i_piece_length i));
             js_member (s2b "pieces") (js_array (map dec (i_pieces i)))].

(** ** serde_json 1.0: reading ([serde_json::from_str], info.rs 72). A syntactic pass, then the
    conversion to the derived structs. A number is kept when it is a plain unsigned integer that
    fits 64 bits; a string is kept when its escapes denote characters. What is not kept is
    acceptable only where the value is ignored (unknown fields). *)

Inductive json :=
| JNull
| JBool (b : bool)
| JNum (n : option N)
| JStr (s : option bytes)
| JArr (l : list json)
| JObj (l : list (option bytes * json)).

Definition js_ws (b : N) : bool := (b =? 32)%N || (b =? 10)%N || (b =? 9)%N || (b =? 13)%N.
Fixpoint skip_ws (t : bytes) : bytes :=
  match t with
  | b :: t' => if js_ws b then skip_ws t' else t
  | [] => []
  end.

Fixpoint strip (p t : bytes) : option bytes :=
  match p, t with
  | [], _ => Some t
  | a :: p', b :: t' => if (a =? b)%N then strip p' t' else None
  | _ :: _, [] => None
  end.

Definition hex_value (b : N) : option N :=
  if is_digit b then Some (b - 48)%N
  else if in_range 65 70 b then Some (b - 55)%N
  else if in_range 97 102 b then Some (b - 87)%N
  else None.
Definition hex4 (a b c d : N) : option N :=
  match hex_value a, hex_value b, hex_value c, hex_value d with
  | Some x, Some y, Some z, Some w => Some (((x * 16 + y) * 16 + z) * 16 + w)%N
  | _, _, _, _ => None
  end.

(** The UTF-8 form of a scalar value. *)
Definition utf8_char (n : N) : bytes :=
  if (n <? 128)%N then [n]
  else if (n <? 2048)%N then [192 + n / 64; 128 + n mod 64]%N
  else if (n <? 65536)%N then [224 + n / 4096; 128 + (n / 64) mod 64; 128 + n mod 64]%N
  else [240 + n / 262144; 128 + (n / 4096) mod 64; 128 + (n / 64) mod 64; 128 + n mod 64]%N.

Definition high_surrogate (n : N) : bool := in_range 55296 56319 n.
Definition low_surrogate (n : N) : bool := in_range 56320 57343 n.

Definition simple_escape (e : N) : option N :=
  if (e =? 34)%N then Some 34%N
  else if (e =? 92)%N then Some 92%N
  else if (e =? 47)%N then Some 47%N
  else if (e =? 98)%N then Some 8%N
  else if (e =? 102)%N then Some 12%N
  else if (e =? 110)%N then Some 10%N
  else if (e =? 114)%N then Some 13%N
  else if (e =? 116)%N then Some 9%N
  else None.

Definition js_cons (c : bytes) (x : option (option bytes * bytes)) : option (option bytes * bytes) :=
  match x with
  | Some (Some s, r) => Some (Some (c ++ s), r)
  | y => y
  end.
Definition js_bad (x : option (option bytes * bytes)) : option (option bytes * bytes) :=
  match x with
  | Some (_, r) => Some (None, r)
  | None => None
  end.

(** The second half of a surrogate pair at the start of the text. *)
Definition low_half (t : bytes) : option N :=
  match t with
  | b :: u :: g1 :: g2 :: g3 :: g4 :: _ =>
    if (b =? 92)%N && (u =? 117)%N then
      match hex4 g1 g2 g3 g4 with
      | Some m => if low_surrogate m then Some m else None
      | None => None
      end
    else None
  | _ => None
  end.

(** The text after an opening quote. *)
Fixpoint js_read_string (fuel : nat) (t : bytes) : option (option bytes * bytes) :=
  match fuel with
  | O => None
  | S f =>
    match t with
    | [] => None
    | b :: t1 =>
      if (b =? 34)%N then Some (Some [], t1)
      else if (b =? 92)%N then
        match t1 with
        | [] => None
        | e :: t2 =>
          if (e =? 117)%N then
            match t2 with
            | h1 :: h2 :: h3 :: h4 :: t6 =>
              match hex4 h1 h2 h3 h4 with
              | None => None
              | Some n =>
                if low_surrogate n then js_bad (js_read_string f t6)
                else if high_surrogate n then
                  match low_half t6 with
                  | Some m =>
                    js_cons (utf8_char (65536 + (n - 55296) * 1024 + (m - 56320)))
                            (js_read_string f (skipn 6 t6))
                  | None => js_bad (js_read_string f t6)
                  end
                else js_cons (utf8_char n) (js_read_string f t6)
              end
            | _ => None
            end
          else
            match simple_escape e with
            | Some c => js_cons [c] (js_read_string f t2)
            | None => None
            end
        end
      else if (b <? 32)%N then None
      else js_cons [b] (js_read_string f t1)
    end
  end.
Definition js_str (t : bytes) : option (option bytes * bytes) := js_read_string (S (List.length t)) t.

Fixpoint digits_of (t : bytes) : bytes * bytes :=
  match t with
  | b :: t' => if is_digit b then let '(d, r) := digits_of t' in (b :: d, r) else ([], t)
  | [] => ([], [])
  end.
(** One or more digits. *)
Definition some_digits (t : bytes) : option bytes :=
  match digits_of t with
  | ([], _) => None
  | (_, r) => Some r
  end.
(** The integer part: no leading zero. *)
Definition js_integer (t : bytes) : option (N * bytes) :=
  match digits_of t with
  | ([], _) => None
  | (d :: ds, r) =>
    match ds with
    | [] => Some (digits_value [d], r)
    | _ => if (d =? 48)%N then None else Some (digits_value (d :: ds), r)
    end
  end.
(** Fraction and exponent; the flag tells whether there was one. *)
Definition js_fraction (t : bytes) : option (bool * bytes) :=
  match t with
  | b :: t' => if (b =? 46)%N then match some_digits t' with Some r => Some (true, r) | None => None end
               else Some (false, t)
  | [] => Some (false, t)
  end.
Definition js_sign (t : bytes) : bytes :=
  match t with
  | b :: t' => if (b =? 43)%N || (b =? 45)%N then t' else t
  | [] => t
  end.
Definition js_exponent (t : bytes) : option (bool * bytes) :=
  match t with
  | b :: t' => if (b =? 101)%N || (b =? 69)%N
               then match some_digits (js_sign t') with Some r => Some (true, r) | None => None end
               else Some (false, t)
  | [] => Some (false, t)
  end.
Definition js_unsigned (neg : bool) (t : bytes) : option (json * bytes) :=
  match js_integer t with
  | None => None
  | Some (n, r) =>
    match js_fraction r with
    | None => None
    | Some (fr, r1) =>
      match js_exponent r1 with
      | None => None
      | Some (ex, r2) =>
        Some (JNum (if neg || fr || ex then None else if (n <? two64)%N then Some n else None), r2)
      end
    end
  end.
Definition js_number (t : bytes) : option (json * bytes) :=
  match t with
  | b :: t' => if (b =? 45)%N then js_unsigned true t' else js_unsigned false t
  | [] => None
  end.

(** The first byte after white space. *)
Definition js_next (t : bytes) : option (N * bytes) :=
  match skip_ws t with
  | b :: r => Some (b, r)
  | [] => None
  end.

Fixpoint js_value (fuel : nat) (t : bytes) : option (json * bytes) :=
  match fuel with
  | O => None
  | S f =>
    match js_next t with
    | None => None
    | Some (b, r) =>
      if (b =? 34)%N then
        match js_str r with Some (s, r1) => Some (JStr s, r1) | None => None end
      else if (b =? 91)%N then
        match js_next r with
        | Some (c, r1) =>
          if (c =? 93)%N then Some (JArr [], r1)
          else match js_elements f r with Some (l, r2) => Some (JArr l, r2) | None => None end
        | None => None
        end
      else if (b =? 123)%N then
        match js_next r with
        | Some (c, r1) =>
          if (c =? 125)%N then Some (JObj [], r1)
          else match js_members f r with Some (l, r2) => Some (JObj l, r2) | None => None end
        | None => None
        end
      else if (b =? 110)%N then
        match strip (s2b "ull") r with Some r1 => Some (JNull, r1) | None => None end
      else if (b =? 116)%N then
        match strip (s2b "rue") r with Some r1 => Some (JBool true, r1) | None => None end
      else if (b =? 102)%N then
        match strip (s2b "alse") r with Some r1 => Some (JBool false, r1) | None => None end
      else js_number (b :: r)
    end
  end
with js_elements (fuel : nat) (t : bytes) : option (list json * bytes) :=
  match fuel with
  | O => None
  | S f =>
    match js_value f t with
    | None => None
    | Some (v, r) =>
      match js_next r with
      | None => None
      | Some (c, r1) =>
        if (c =? 93)%N then Some ([v], r1)
        else if (c =? 44)%N then
          match js_elements f r1 with Some (l, r2) => Some (v :: l, r2) | None => None end
        else None
      end
    end
  end
with js_members (fuel : nat) (t : bytes) : option (list (option bytes * json) * bytes) :=
  match fuel with
  | O => None
  | S f =>
    match js_next t with
    | None => None
    | Some (q, r0) =>
      if (q =? 34)%N then
        match js_str r0 with
        | None => None
        | Some (k, r1) =>
          match js_next r1 with
          | None => None
          | Some (c, r2) =>
            if (c =? 58)%N then
              match js_value f r2 with
              | None => None
              | Some (v, r3) =>
                match js_next r3 with
                | None => None
                | Some (e, r4) =>
                  if (e =? 125)%N then Some ([(k, v)], r4)
                  else if (e =? 44)%N then
                    match js_members f r4 with Some (l, r5) => Some ((k, v) :: l, r5) | None => None end
                  else None
                end
              end
            else None
          end
        end
      else None
    end
  end.

(** Every nested call works on a shorter text or is the only one on the same text: twice the length
    is enough fuel (proved in ProofCache). *)
Definition js_fuel (t : bytes) : nat := S (S (2 * List.length t)).

(** ** Conversion to the derived structs. *)
Definition as_num (j : json) : option N := match j with JNum n => n | _ => None end.
Definition as_str (j : json) : option bytes := match j with JStr s => s | _ => None end.
Definition json_u8 (j : json) : option N :=
  match as_num j with Some n => if (n <? 256)%N then Some n else None | None => None end.
Fixpoint all_some {A B} (f : A -> option B) (l : list A) : option (list B) :=
  match l with
  | [] => Some []
  | x :: t => match f x, all_some f t with Some y, Some ys => Some (y :: ys) | _, _ => None end
  end.
Definition as_list {A} (f : json -> option A) (j : json) : option (list A) :=
  match j with JArr l => all_some f l | _ => None end.
Definition as_option {A} (f : json -> option A) (j : json) : option (option A) :=
  match j with JNull => Some None | _ => match f j with Some x => Some (Some x) | None => None end end.

Definition key_is (k : bytes) (e : option bytes * json) : bool :=
  match fst e with Some k' => bytes_eqb k k' | None => false end.
Definition keys_read (l : list (option bytes * json)) : bool :=
  forallb (fun e => match fst e with Some _ => true | None => false end) l.
(** A field that must be present exactly once. *)
Definition required {A} (f : json -> option A) (k : bytes) (l : list (option bytes * json)) : option A :=
  match filter (key_is k) l with
  | [(_, v)] => f v
  | _ => None
  end.
(** An [Option] field: absent means None. *)
Definition optional {A} (f : json -> option A) (k : bytes) (l : list (option bytes * json))
  : option (option A) :=
  match filter (key_is k) l with
  | [] => Some None
  | [(_, v)] => as_option f v
  | _ => None
  end.

(** file.rs 6-10: [derive(Deserialize)] for File: an object, or an array of the fields in order. *)
Definition json_file (j : json) : option file :=
  match j with
  | JObj l =>
    if keys_read l then
      match required (as_list as_str) (s2b "path") l, required as_num (s2b "length") l with
      | Some p, Some n => Some {| f_path := p; f_length := n |}
      | _, _ => None
      end
    else None
  | JArr [a; b] =>
    match as_list as_str a, as_num b with
    | Some p, Some n => Some {| f_path := p; f_length := n |}
    | _, _ => None
    end
  | _ => None
  end.

(** info.rs 13-20: [derive(Deserialize)] for Info. *)
Definition json_info (j : json) : option info :=
  match j with
  | JObj l =>
    if keys_read l then
      match optional (as_list json_file) (s2b "files") l, optional as_num (s2b "length") l,
            required as_str (s2b "name") l, required as_num (s2b "piece_length") l,
            required (as_list json_u8) (s2b "pieces") l with
      | Some fs, Some len, Some nm, Some pl, Some ps =>
        Some {| i_files := fs; i_length := len; i_name := nm; i_piece_length := pl; i_pieces := ps |}
      | _, _, _, _, _ => None
      end
    else None
  | JArr [a; b; c; d; e] =>
    match as_option (as_list json_file) a, as_option as_num b, as_str c, as_num d, as_list json_u8 e with
    | Some fs, Some len, Some nm, Some pl, Some ps =>
      Some {| i_files := fs; i_length := len; i_name := nm; i_piece_length := pl; i_pieces := ps |}
    | _, _, _, _, _ => None
    end
  | _ => None
  end.

(** [serde_json::from_str::<Info>]: only white space may follow the value. *)
Definition info_from_json (t : bytes) : option info :=
  match js_value (js_fuel t) t with
  | Some (j, r) => match skip_ws r with [] => json_info j | _ => None end
  | None => None
  end.

(** ** info.rs 60-78: from_file at a location. Opening fails when nothing is there; reading fails on
    a directory and on text that is not UTF-8; a text that is not a description panics (line 72).
    Simplified: the error carries the location instead of the path text it was given. *)
Definition from_file (d : fs) (l : loc) : outcome (result info info_error) :=
  match d l with
  | None => Ret (Err (IENoInfoFile (join_slash l)))
  | Some NDir => Ret (Err (IENoInfoFile (join_slash l)))
  | Some (NFile c) =>
    if utf8_valid c then
      match info_from_json c with
      | Some i => Ret (Ok i)
      | None => Panic
      end
    else Ret (Err (IENoInfoFile (join_slash l)))
  end.

(** info.rs 80-90: save. [File::create] truncates, and panics on a directory (line 81). The file
    system takes the first [accept] bytes of the text; with fewer than all of them the call is an
    error (or the process died), and the file keeps what was taken. *)
Definition save (accept : nat) (d : fs) (l : loc) (i : info) : outcome (result unit info_error * fs) :=
  match d l with
  | Some NDir => Panic
  | _ =>
    let t := js_info i in
    Ret (if (List.length t <=? accept)%nat then Ok tt else Err (IENoInfoFile (join_slash l)),
         fs_set d l (NFile (firstn accept t)))
  end.

(** actors/torrent.rs 156-171: collect_info with working directory [cwd]. Simplified: [cwd] exists;
    the file name is not one of "", "." and ".." (hashes have 20 or 32 bytes, magnet.rs 40-57). *)
Definition downloads : bytes := s2b "downloads".
Definition cache_loc (cwd : loc) (info_hash : bytes) : loc := cwd ++ [downloads; encode_binary info_hash].

Definition collect_info (accept fuel : nat) (cwd : loc) (d : fs) (net : option stream) (pid : bytes)
  (info_hash ep : bytes) : outcome (option info * fs) :=
  match walk_create d cwd [dot; downloads] with
  | None => Panic
  | Some (d1, _) =>
    let path := cache_loc cwd info_hash in
    c <- from_file d1 path ;;
    match c with
    | Ok i => Ret (Some i, d1)
    | Err _ =>
      g <- get_info fuel net pid info_hash ep ;;
      match g with
      | Ok i => '(_, d2) <- save accept d1 path i ;; Ret (Some i, d2)
      | Err _ => Ret (None, d1)
      end
    end
  end.
