(** ModelWriter: src/torrent/writer.rs and the part of the file system it uses *)
From Verif Require Import Base Utf8 ModelBencode ModelTorrent.

(** [&l[a..b]] with usize bounds. *)
Definition sliceN {A} (l : list A) (a b : N) : outcome (list A) :=
  if (a <=? b)%N && (b <=? lenN l)%N
  then Ret (firstn (N.to_nat (b - a)) (skipn (N.to_nat a) l))
  else Panic.

(** writer.rs 29-35: struct FileWriter. *)
Record file_writer := { fw_path : list bytes; fw_start : N; fw_end : N; fw_piece : bytes }.

(** writer.rs 68-74: struct FileParser. *)
Record file_parser := {
  fp_piece_length : N;
  fp_offset : N;
  fp_start_file_index : N;
  fp_end_file_index : N;
  fp_right_file_boundary : N
}.

(** writer.rs 77-86: FileParser::new. *)
Definition file_parser_new (p : profile) (piece_length piece_index default_piece_length : N)
  : outcome file_parser :=
  offset <- umul p piece_index default_piece_length ;;
  Ret {| fp_piece_length := piece_length; fp_offset := offset; fp_start_file_index := offset;
         fp_right_file_boundary := 0; fp_end_file_index := 0 |}.

(** writer.rs 88-90 *)
Definition update_start_file_index (s : file_parser) : file_parser :=
  {| fp_piece_length := fp_piece_length s; fp_offset := fp_offset s;
     fp_start_file_index := fp_end_file_index s; fp_end_file_index := fp_end_file_index s;
     fp_right_file_boundary := fp_right_file_boundary s |}.

(** writer.rs 92-94 *)
Definition update_right_file_boundary (p : profile) (s : file_parser) (file_length : N)
  : outcome file_parser :=
  r <- uadd p (fp_right_file_boundary s) file_length ;;
  Ret {| fp_piece_length := fp_piece_length s; fp_offset := fp_offset s;
         fp_start_file_index := fp_start_file_index s; fp_end_file_index := fp_end_file_index s;
         fp_right_file_boundary := r |}.

(** writer.rs 96-98 *)
Definition update_end_file_index (p : profile) (s : file_parser) : outcome file_parser :=
  e <- uadd p (fp_offset s) (fp_piece_length s) ;;
  Ret {| fp_piece_length := fp_piece_length s; fp_offset := fp_offset s;
         fp_start_file_index := fp_start_file_index s;
         fp_end_file_index := N.min (fp_right_file_boundary s) e;
         fp_right_file_boundary := fp_right_file_boundary s |}.

(** writer.rs 100-102 *)
Definition get_start_piece_index (p : profile) (s : file_parser) : outcome N :=
  usub p (fp_start_file_index s) (fp_offset s).
(** writer.rs 104-106 *)
Definition get_end_piece_index (p : profile) (s : file_parser) : outcome N :=
  usub p (fp_end_file_index s) (fp_offset s).
(** writer.rs 108-110 *)
Definition get_start_file_index (p : profile) (s : file_parser) (file_length : N) : outcome N :=
  b <- usub p (fp_right_file_boundary s) file_length ;;
  usub p (fp_start_file_index s) b.
(** writer.rs 112-114 *)
Definition get_end_file_index (p : profile) (s : file_parser) (file_length : N) : outcome N :=
  b <- usub p (fp_right_file_boundary s) file_length ;;
  usub p (fp_end_file_index s) b.
(** writer.rs 116-118 *)
Definition is_piece_in_file (s : file_parser) : bool :=
  (fp_offset s <? fp_right_file_boundary s)%N.
(** writer.rs 120-122 (the name is the source's: true means the piece continues in the next file) *)
Definition is_piece_finished (p : profile) (s : file_parser) : outcome bool :=
  e <- uadd p (fp_offset s) (fp_piece_length s) ;;
  Ret (fp_right_file_boundary s <? e)%N.

(** writer.rs 134-156: the loop over the files; [acc] is files_to_write. *)
Fixpoint file_writers_loop (p : profile) (piece : bytes) (files : list file) (s : file_parser)
  (acc : list file_writer) : outcome (list file_writer) :=
  match files with
  | [] => Ret acc
  | file :: rest =>
    let file_length := get_length file in
    s1 <- update_right_file_boundary p s file_length ;;
    if is_piece_in_file s1 then
      s2 <- update_end_file_index p s1 ;;
      a <- get_start_file_index p s2 file_length ;;
      b <- get_end_file_index p s2 file_length ;;
      pa <- get_start_piece_index p s2 ;;
      pb <- get_end_piece_index p s2 ;;
      data <- sliceN piece pa pb ;;
      let acc' := acc ++ [{| fw_path := get_path file; fw_start := a; fw_end := b;
                             fw_piece := data |}] in
      more <- is_piece_finished p s2 ;;
      if more then file_writers_loop p piece rest (update_start_file_index s2) acc'
      else Ret acc'
    else file_writers_loop p piece rest s1 acc
  end.

(** writer.rs 125-157: get_file_writers. *)
Definition get_file_writers (p : profile) (files : list file) (piece : bytes) (idx piece_length : N)
  : outcome (list file_writer) :=
  s <- file_parser_new p (lenN piece) idx piece_length ;;
  file_writers_loop p piece files s [].

(** ** File system (Linux semantics without symbolic links, permissions or space limits) *)

Inductive node := NDir | NFile (content : bytes).
(** An absolute location is the list of names from the root. *)
Definition loc := list bytes.
Definition fs := loc -> option node.

Fixpoint loc_eqb (a b : loc) : bool :=
  match a, b with
  | [], [] => true
  | x :: a', y :: b' => bytes_eqb x y && loc_eqb a' b'
  | _, _ => false
  end.
Definition fs_set (d : fs) (l : loc) (n : node) : fs :=
  fun l' => if loc_eqb l l' then Some n else d l'.

(** [Vec<String>::join("/")]; 47 is '/'. *)
Fixpoint join_slash (l : list bytes) : bytes :=
  match l with
  | [] => []
  | [x] => x
  | x :: t => x ++ [47%N] ++ join_slash t
  end.

(** Splitting a path text at '/'. *)
Fixpoint split_slash (s : bytes) : list bytes :=
  match s with
  | [] => [[]]
  | b :: t =>
    if (b =? 47)%N then [] :: split_slash t
    else match split_slash t with
         | [] => [[b]]
         | h :: r => (b :: h) :: r
         end
  end.

Definition dot : bytes := [46%N].
Definition dotdot : bytes := [46%N; 46%N].
Definition is_special (s : bytes) : bool :=
  bytes_eqb s [] || bytes_eqb s dot || bytes_eqb s dotdot.

(** [create_dir_all] on the directory part, name by name from [at_]: the empty name and "." stay,
    ".." goes to the parent, a missing name becomes a directory, a regular file in the way is an
    error. Returns the location reached. *)
Fixpoint walk_create (d : fs) (at_ : loc) (names : list bytes) : option (fs * loc) :=
  match names with
  | [] => Some (d, at_)
  | n :: rest =>
    if bytes_eqb n [] || bytes_eqb n dot then walk_create d at_ rest
    else if bytes_eqb n dotdot then walk_create d (removelast at_) rest
    else
      let here := at_ ++ [n] in
      match d here with
      | Some NDir => walk_create d here rest
      | Some (NFile _) => None
      | None => walk_create (fs_set d here NDir) here rest
      end
  end.

(** [FileExt::write_at] accepting at most [accept] bytes: a write of no bytes changes nothing; a
    gap before [start] is filled with zeros; bytes outside the written range stay. *)
Definition write_at (content : bytes) (start : N) (data : bytes) : bytes :=
  match data with
  | [] => content
  | _ =>
    let s := N.to_nat start in
    firstn s content ++ repeat 0%N (s - List.length content) ++ data
    ++ skipn (s + List.length data) content
  end.

(** writer.rs 48-65: write_to_filesystem with working directory [cwd].
    - line 49: the path text is the components joined by '/';
    - lines 50-51: [parent().unwrap()] panics on "" and "/"; a text ending in "", "." or ".."
      cannot be opened for writing (EISDIR/ENOENT), so [open(..).unwrap()] panics;
      a NUL byte makes the std path conversion fail, hence a panic;
    - line 52: create_dir_all on the directory part, [unwrap];
    - lines 54-58: open without truncation, create if missing; panics on a directory;
    - line 61: write_at. [accept] is the number of bytes the OS takes; the code ignores it. *)
Definition write_to_filesystem_n (accept : nat) (cwd : loc) (d : fs) (w : file_writer)
  : outcome fs :=
  let text := join_slash (fw_path w) in
  let segs := split_slash text in
  let name := last segs [] in
  if is_special name || existsb (N.eqb 0) text then Panic
  else
    let start := match text with
                 | b :: _ => if (b =? 47)%N then [] else cwd
                 | [] => cwd
                 end in
    match walk_create d start (removelast segs) with
    | None => Panic
    | Some (d1, dir) =>
      let target := dir ++ [name] in
      match d1 target with
      | Some NDir => Panic
      | Some (NFile c) =>
        Ret (fs_set d1 target (NFile (write_at c (fw_start w) (firstn accept (fw_piece w)))))
      | None =>
        Ret (fs_set d1 target (NFile (write_at [] (fw_start w) (firstn accept (fw_piece w)))))
      end
    end.

(** The usual case: the OS takes all bytes (assumption on regular files, see DESIGN.md). *)
Definition write_to_filesystem (cwd : loc) (d : fs) (w : file_writer) : outcome fs :=
  write_to_filesystem_n (List.length (fw_piece w)) cwd d w.

Fixpoint run_writers (cwd : loc) (d : fs) (ws : list file_writer) : outcome fs :=
  match ws with
  | [] => Ret d
  | w :: t => d' <- write_to_filesystem cwd d w ;; run_writers cwd d' t
  end.

(** writer.rs 15-27: write. *)
Definition write (p : profile) (cwd : loc) (d : fs) (piece : bytes) (idx : N) (files : list file)
  (piece_length : N) : outcome fs :=
  ws <- get_file_writers p files piece idx piece_length ;;
  run_writers cwd d ws.

(** ** What a write that panics leaves behind. [unwrap] gives nothing back: the directories made and
    the files written before the panic stay. *)

(** The directories [create_dir_all] has made when it returns or fails. *)
Fixpoint walk_made (d : fs) (at_ : loc) (names : list bytes) : fs :=
  match names with
  | [] => d
  | n :: rest =>
    if bytes_eqb n [] || bytes_eqb n dot then walk_made d at_ rest
    else if bytes_eqb n dotdot then walk_made d (removelast at_) rest
    else
      let here := at_ ++ [n] in
      match d here with
      | Some NDir => walk_made d here rest
      | Some (NFile _) => d
      | None => walk_made (fs_set d here NDir) here rest
      end
  end.

(** [Path::parent] looks past "." and "/" at the end. *)
Fixpoint drop_stays (names : list bytes) : list bytes :=
  match names with
  | n :: rest => if bytes_eqb n [] || bytes_eqb n dot then drop_stays rest else names
  | [] => []
  end.

(** writer.rs 48-65, after a panic: line 52 makes the directories (none if there is a NUL byte in
    their names), the rest of the lines make nothing. *)
Definition left_by (cwd : loc) (d : fs) (w : file_writer) : fs :=
  let text := join_slash (fw_path w) in
  let dirs := removelast (rev (drop_stays (rev (split_slash text)))) in
  if existsb (existsb (N.eqb 0)) dirs then d
  else walk_made d (match text with
                    | b :: _ => if (b =? 47)%N then [] else cwd
                    | [] => cwd
                    end) dirs.

(** writer.rs 21-23: the loop over the files of a piece, to its end or to the first panic. *)
Fixpoint left_by_all (cwd : loc) (d : fs) (ws : list file_writer) : fs :=
  match ws with
  | [] => d
  | w :: t =>
    match write_to_filesystem cwd d w with
    | Ret d' => left_by_all cwd d' t
    | _ => left_by cwd d w
    end
  end.

(** writer.rs 15-27: the disk after [write], whether it returns or panics. *)
Definition write_left (p : profile) (cwd : loc) (d : fs) (piece : bytes) (idx : N) (files : list file)
  (piece_length : N) : fs :=
  match get_file_writers p files piece idx piece_length with
  | Ret ws => left_by_all cwd d ws
  | _ => d
  end.
