(** SpecCache: vocabulary of the statements about the saved torrent description. *)
From Verif Require Import Base Utf8 ModelTorrent ModelWriter.

(** What every [Info] value of the Rust program is: strings are UTF-8, lengths fit 64 bits, the
    piece hashes are bytes. *)
Definition text (s : bytes) : Prop := utf8_valid s = true.
Definition usize (n : N) : Prop := (n < 2 ^ 64)%N.
Definition octets (l : bytes) : Prop := Forall (fun b => (b < 256)%N) l.

Definition rust_file (f : file) : Prop := Forall text (f_path f) /\ usize (f_length f).
Definition rust_info (i : info) : Prop :=
  (forall l, i_files i = Some l -> Forall rust_file l) /\
  (forall n, i_length i = Some n -> usize n) /\
  text (i_name i) /\ usize (i_piece_length i) /\ octets (i_pieces i).

(** Every name in it is plain ASCII. *)
Definition ascii_info (i : info) : Prop :=
  ascii (i_name i) /\ (forall l f, i_files i = Some l -> In f l -> Forall ascii (f_path f)).

(** Where the description of the torrent with this hash is kept: <cwd>/downloads/<hash>, the hash
    in URL form [name]. *)
Definition in_downloads (cwd : loc) (name : bytes) : loc := cwd ++ [s2b "downloads"; name].

(** Two file systems differ at most at the given locations. *)
Definition same_elsewhere (ls : list loc) (d d' : fs) : Prop :=
  forall l, ~ In l ls -> d' l = d l.
