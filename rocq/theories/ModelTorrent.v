(** ModelTorrent: src/torrent/{file,info,magnet}.rs *)
From Verif Require Import Base Utf8 ModelBencode.

(** ** file.rs *)

(** file.rs 6-10: struct File. *)
Record file := { f_path : list bytes; f_length : N }.

(** file.rs 32-34 *)
Definition file_new (path : list bytes) (length : N) : file := {| f_path := path; f_length := length |}.
(** file.rs 36-42 *)
Definition get_length (f : file) : N := f_length f.
Definition get_path (f : file) : list bytes := f_path f.

(** file.rs 24-27: the loop over the path list, stopping at the first bad component. *)
Fixpoint path_components (l : list metainfo) : result (list bytes) metainfo_error :=
  match l with
  | [] => Ok []
  | a :: t => rbind (get_string_content a) (fun s =>
              rbind (path_components t) (fun rest => Ok (s :: rest)))
  end.

(** file.rs 19-30: File::from_metainfo. *)
Definition file_from_metainfo (m : metainfo) : result file metainfo_error :=
  rbind (get_integer_from_dict m (s2b "length")) (fun file_length =>
  rbind (get_list_from_dict m (s2b "path")) (fun l =>
  rbind (path_components l) (fun file_path =>
  Ok (file_new file_path file_length)))).

(** file.rs 45-58: Encode for File. *)
Definition enc_file (f : file) : bytes :=
  s2b "d"
  ++ encode_dict_entry (s2b "length") (enc_usize (f_length f))
  ++ encode_dict_entry (s2b "path") (enc_list enc_string (f_path f))
  ++ s2b "e".

(** ** info.rs *)

(** info.rs 13-20: struct Info. *)
Record info := {
  i_files : option (list file);
  i_length : option N;
  i_name : bytes;
  i_piece_length : N;
  i_pieces : bytes
}.

(** info.rs 22-32: enum InfoError. *)
Inductive info_error :=
| IEMetainfo (e : metainfo_error)
| IEDecoder (e : decoder_error)
| IENoFileLength
| IENoInfoFile (path : bytes).

Definition ie_meta {A} (r : result A metainfo_error) : result A info_error :=
  match r with Ok a => Ok a | Err e => Err (IEMetainfo e) end.

(** [iter().flat_map(File::from_metainfo)]: a Result iterates over its Ok value, errors vanish. *)
Definition flat_files (l : list metainfo) : list file :=
  flat_map (fun m => match file_from_metainfo m with Ok f => [f] | Err _ => [] end) l.

(** info.rs 40-58: Info::from_metainfo. *)
Definition info_from_metainfo (a : metainfo) : result info info_error :=
  rbind (ie_meta (get_bytes_from_dict a (s2b "pieces"))) (fun pieces =>
  rbind (ie_meta (get_integer_from_dict a (s2b "piece length"))) (fun piece_length =>
  rbind (ie_meta (get_string_from_dict a (s2b "name"))) (fun name =>
  let length := res_ok (get_integer_from_dict a (s2b "length")) in
  let files := option_map flat_files (res_ok (get_list_from_dict a (s2b "files"))) in
  Ok {| i_name := name; i_pieces := pieces; i_piece_length := piece_length;
        i_files := files; i_length := length |}))).

(** info.rs 35-38: Info::from_bytes. *)
Definition info_from_bytes (b : bytes) : outcome (result info info_error) :=
  r <- decode b ;;
  match r with
  | Err e => Ret (Err (IEDecoder e))
  | Ok (m, _) => Ret (info_from_metainfo m)
  end.

(** info.rs 92-97: get_piece; [expect] panics beyond the last whole 20-byte chunk. *)
Definition get_piece (i : info) (idx : N) : outcome bytes :=
  let chunks := chunks_exact 20 (i_pieces i) in
  if (idx <? lenN chunks)%N then index chunks (N.to_nat idx) else Panic.

Section Hash.
  (** SHA-1 (crate sha-1), a parameter of everything that uses it. *)
  Variable sha1 : bytes -> bytes.

  (** info.rs 99-101: verify_piece. *)
  Definition verify_piece (i : info) (piece : bytes) (idx : N) : outcome bool :=
    h <- get_piece i idx ;;
    Ret (bytes_eqb (sha1 piece) h).
End Hash.

(** info.rs 103-105 *)
Definition get_piece_length (i : info) : N := i_piece_length i.

(** [Iterator::sum] over usize: overflow panics in a debug build and wraps in a release build. *)
Fixpoint usum (p : profile) (acc : N) (l : list N) : outcome N :=
  match l with
  | [] => Ret acc
  | x :: t => acc' <- uadd p acc x ;; usum p acc' t
  end.

(** info.rs 107-112: get_total_length; [unwrap] panics when neither files nor length is there. *)
Definition get_total_length (p : profile) (i : info) : outcome N :=
  match i_files i with
  | Some files => usum p 0 (map get_length files)
  | None => match i_length i with
            | Some l => Ret l
            | None => Panic
            end
  end.

(** info.rs 114-123: get_files. *)
Definition get_files (i : info) : result (list file) info_error :=
  match i_files i with
  | Some files => Ok files
  | None => match i_length i with
            | None => Err IENoFileLength
            | Some l => Ok [file_new [i_name i] l]
            end
  end.

(** info.rs 130-149: Encode for Info. *)
Definition enc_info (i : info) : bytes :=
  s2b "d"
  ++ encode_dict_entry (s2b "files") (enc_option (enc_list enc_file) (i_files i))
  ++ encode_dict_entry (s2b "length") (enc_option enc_usize (i_length i))
  ++ encode_dict_entry (s2b "name") (enc_string (i_name i))
  ++ encode_dict_entry (s2b "piece length") (enc_usize (i_piece_length i))
  ++ encode_dict_entry (s2b "pieces") (enc_bytes (i_pieces i))
  ++ s2b "e".

(** info.rs 125-127: compute_info_hash. *)
Definition compute_info_hash (sha1 : bytes -> bytes) (i : info) : bytes := sha1 (enc_info i).

(** ** magnet.rs *)

(** magnet.rs 18-20: verify_info_hash (true means: reject). *)
Definition verify_info_hash (m : bytes) : outcome bool :=
  if (lenN m <? 60)%N then Ret true
  else h <- slice m 0 8 ;; Ret (negb (bytes_eqb h (s2b "magnet:?"))).

Definition is_ascii_uppercase (b : N) : bool := (65 <=? b)%N && (b <=? 90)%N.
Definition is_ascii_lowercase (b : N) : bool := (97 <=? b)%N && (b <=? 122)%N.

(** u8 subtraction. *)
Definition u8sub (p : profile) (a b : N) : outcome N :=
  if (b <=? a)%N then Ret (a - b)%N
  else match p with Debug => Panic | Release => Ret (a + 256 - b)%N end.

(** magnet.rs 30-38: byte_to_hex. *)
Definition byte_to_hex (p : profile) (b : N) : outcome N :=
  if is_ascii_uppercase b then u8sub p b 55
  else if is_ascii_lowercase b then u8sub p b 87
  else u8sub p b 48.

(** magnet.rs 40-49: hex_decode; [<< 4] on u8 drops the high bits. *)
Definition hex_pair (p : profile) (chunk : bytes) : outcome N :=
  c0 <- index chunk 0 ;;
  c1 <- index chunk 1 ;;
  h <- byte_to_hex p c0 ;;
  l <- byte_to_hex p c1 ;;
  Ret (N.lor (as_u8 (N.shiftl h 4)) l).
Fixpoint omap {A B} (f : A -> outcome B) (l : list A) : outcome (list B) :=
  match l with
  | [] => Ret []
  | x :: t => y <- f x ;; ys <- omap f t ;; Ret (y :: ys)
  end.
Definition hex_decode (p : profile) (s : bytes) : outcome bytes :=
  omap (hex_pair p) (chunks_exact 2 s).

(** magnet.rs 51-57: parse_info_hash. 38 is '&'. *)
Definition parse_info_hash (p : profile) (m : bytes) : outcome bytes :=
  b <- index m 60 ;;
  if (b =? 38)%N then s <- slice m 20 60 ;; hex_decode p s
  else slice m 20 52.

(** magnet.rs 59-67: parse_magnet; [Err tt] is NoMagnet, [Ok h] a Magnet with info hash [h]. *)
Definition parse_magnet (p : profile) (m : bytes) : outcome (result bytes unit) :=
  bad <- verify_info_hash m ;;
  if bad then Ret (Err tt)
  else h <- parse_info_hash p m ;; Ret (Ok h).
