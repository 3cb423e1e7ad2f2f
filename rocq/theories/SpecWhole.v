(** SpecWhole: what it takes for a torrent to be downloaded from a link to the last byte. *)
From Verif Require Import Base ModelTorrent ModelTracker ModelWriter ModelActors ModelCache ModelMain
  SpecBencode SpecTorrent SpecWriter SpecPieces SpecSystem SpecCache SpecMain.

(** A torrent as its author made it: ASCII names, its metadata describes the content [T], the sizes are
    in range, and no file of it is called "downloads". *)
Record publishable (sha1 : bytes -> bytes) (i : info) (files : list file) (T : bytes) : Prop := {
  pb_plain : plain_info i;
  pb_octets : octets (i_pieces i);
  pb_describes : describes sha1 i files T;
  pb_total : (lenN T + i_piece_length i <= 2 ^ 64)%N;
  pb_piece : (i_piece_length i < 2 ^ 32)%N;
  pb_count : (piece_count (lenN T) (i_piece_length i) <= 2 ^ 32)%N;
  pb_meta : (lenN (benc (info_value i)) < 2 ^ 64)%N;
  pb_outside : outside_downloads files
}.

(** The disk can take a description of the torrent with hash [h], and has none or the right one. *)
Definition description_ok (cwd : loc) (h : bytes) (i : info) (d : fs) : Prop :=
  (d (cwd ++ [s2b "downloads"]) = None \/ d (cwd ++ [s2b "downloads"]) = Some NDir) /\
  (d (in_downloads cwd (encode_binary h)) = None \/ d (in_downloads cwd (encode_binary h)) = Some (NFile (js_info i))).

(** Nothing left to do for this torrent: no message, no request, no download, nothing to write. *)
Definition at_rest (x : sys) : Prop := sy_mail x = [] /\ sy_queue x = [] /\ sy_working x = [] /\ sy_writer x = [].

(** All non-empty files are on the disk, byte for byte. *)
Definition complete_on (cwd : loc) (files : list file) (T : bytes) (d : fs) : Prop :=
  forall k f, nth_error files k = Some f -> (0 < f_length f)%N ->
    d (cwd ++ f_path f) = Some (NFile (file_content T files k f)).
