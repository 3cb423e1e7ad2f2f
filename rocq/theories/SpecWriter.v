(** SpecWriter: torrent content, files and pieces, without helpers of the model. *)
From Verif Require Import Base ModelTorrent ModelWriter.

(** The files of a torrent are laid out one after the other. *)
Fixpoint total_length (files : list file) : N :=
  match files with
  | [] => 0%N
  | f :: t => (f_length f + total_length t)%N
  end.
(** Where file number [k] starts. *)
Definition file_start (files : list file) (k : nat) : N := total_length (firstn k files).

(** Bytes [a..b) of a list. *)
Definition range {A} (a b : N) (l : list A) : list A := firstn (N.to_nat (b - a)) (skipn (N.to_nat a) l).

(** The content [T] of a torrent: piece number [i], and what belongs into file number [k]. *)
Definition torrent_piece (T : bytes) (plen i : N) : bytes := range (i * plen) ((i + 1) * plen) T.
Definition file_content (T : bytes) (files : list file) (k : nat) (f : file) : bytes :=
  range (file_start files k) (file_start files k + f_length f) T.
(** The number of pieces. *)
Definition piece_count (total plen : N) : N := ((total + plen - 1) / plen)%N.

(** Splitting a block of bytes at global offset [o] over the files: for each file that the block
    meets, the position inside the file and the bytes. [start] is the start of the first file. *)
Fixpoint split_piece (files : list file) (start o : N) (piece : bytes) : list (list bytes * N * bytes) :=
  match files with
  | [] => []
  | f :: t =>
    let stop := (start + f_length f)%N in
    let e := (o + N.of_nat (List.length piece))%N in
    (if (o <? stop)%N && (start <? e)%N
     then [(f_path f, N.max start o - start, range (N.max start o - o) (N.min stop e - o) piece)%N]
     else [])
    ++ split_piece t stop o piece
  end.

(** Names that are plain file names. *)
Definition sane_name (n : bytes) : Prop :=
  n <> [] /\ ~ In 47%N n /\ ~ In 0%N n /\ n <> s2b "." /\ n <> s2b "..".
Definition sane_path (p : list bytes) : Prop := p <> [] /\ Forall sane_name p.
Definition is_prefix {A} (a b : list A) : Prop := exists c, b = a ++ c.

(** A usable file list: plain paths, none equal to or inside another. *)
Definition good_files (files : list file) : Prop :=
  Forall (fun f => sane_path (f_path f)) files /\
  forall i j f g, nth_error files i = Some f -> nth_error files j = Some g -> i <> j ->
    ~ is_prefix (f_path f) (f_path g).

(** A disk on which the files can be (re)written: directories on the way are absent or directories,
    the files are absent or no longer than they should be. *)
Definition disk_ready (cwd : loc) (files : list file) (d : fs) : Prop :=
  forall f, In f files ->
    (forall q r, f_path f = q ++ r -> q <> [] -> r <> [] -> d (cwd ++ q) = None \/ d (cwd ++ q) = Some NDir) /\
    (d (cwd ++ f_path f) = None \/
     exists c, d (cwd ++ f_path f) = Some (NFile c) /\ (N.of_nat (List.length c) <= f_length f)%N).

(** The byte at global position [g] is at its place on the disk. *)
Definition holds (cwd : loc) (files : list file) (T : bytes) (d : fs) (g : N) : Prop :=
  forall k f, nth_error files k = Some f -> (file_start files k <= g < file_start files k + f_length f)%N ->
  exists c, d (cwd ++ f_path f) = Some (NFile c) /\
    nth_error c (N.to_nat (g - file_start files k)) = nth_error T (N.to_nat g).

(** A location that is neither a file of the torrent nor a directory on the way to one. *)
Definition unrelated (cwd : loc) (files : list file) (l : loc) : Prop :=
  forall f q r, In f files -> f_path f = q ++ r -> q <> [] -> l <> cwd ++ q.

(** Writing the pieces of [T] named by [order], one after the other. *)
Fixpoint write_pieces (p : profile) (cwd : loc) (files : list file) (plen : N) (T : bytes)
  (order : list N) (d : fs) : outcome fs :=
  match order with
  | [] => Ret d
  | i :: t => d' <- write p cwd d (torrent_piece T plen i) i files plen ;; write_pieces p cwd files plen T t d'
  end.

(** What crashes can leave behind: any number of the single file writes of any pieces, each of them
    cut after any number of bytes, and any number of directories on the way. *)
Inductive interrupted (p : profile) (cwd : loc) (files : list file) (plen : N) (T : bytes) : fs -> fs -> Prop :=
| int_nothing : forall d, interrupted p cwd files plen T d d
| int_write : forall d1 d2 d3 i ws w n,
    interrupted p cwd files plen T d1 d2 -> (i < piece_count (N.of_nat (List.length T)) plen)%N ->
    get_file_writers p files (torrent_piece T plen i) i plen = Ret ws -> In w ws ->
    write_to_filesystem_n n cwd d2 w = Ret d3 ->
    interrupted p cwd files plen T d1 d3
| int_mkdir : forall d1 d2 f q r,
    interrupted p cwd files plen T d1 d2 -> In f files -> f_path f = q ++ r -> q <> [] -> r <> [] ->
    d2 (cwd ++ q) = None ->
    interrupted p cwd files plen T d1 (fs_set d2 (cwd ++ q) NDir).
