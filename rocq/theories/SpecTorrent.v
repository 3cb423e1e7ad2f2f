(** SpecTorrent: what torrent metadata and magnet links mean, without helpers of the model. *)
From Coq Require Import Sorted.
From Verif Require Import Base Utf8 SpecBencode ModelTorrent.

(** The metadata dictionary describing an [info]: optional entries are left out. *)
Definition file_value (f : file) : bval :=
  BDict [(s2b "length", BInt (f_length f)); (s2b "path", BList (map BStr (f_path f)))].
Definition info_value (i : info) : bval :=
  BDict ((match i_files i with
          | Some fs => [(s2b "files", BList (map file_value fs))]
          | None => []
          end)
         ++ (match i_length i with Some n => [(s2b "length", BInt n)] | None => [] end)
         ++ [(s2b "name", BStr (i_name i)); (s2b "piece length", BInt (i_piece_length i));
             (s2b "pieces", BStr (i_pieces i))]).

(** Texts are ASCII and non-empty, numbers and lengths fit 64 bits, there is a piece hash. *)
Definition plain_text (s : bytes) : Prop := ascii s /\ s <> [] /\ (N.of_nat (List.length s) < 2 ^ 64)%N.
Definition plain_file (f : file) : Prop := Forall plain_text (f_path f) /\ (f_length f < 2 ^ 64)%N.
Definition plain_info (i : info) : Prop :=
  (forall fs, i_files i = Some fs -> Forall plain_file fs) /\
  (forall n, i_length i = Some n -> (n < 2 ^ 64)%N) /\
  plain_text (i_name i) /\ (i_piece_length i < 2 ^ 64)%N /\
  i_pieces i <> [] /\ (N.of_nat (List.length (i_pieces i)) < 2 ^ 64)%N.

(** The metadata keys this client knows. *)
Definition known_keys : list bytes :=
  [s2b "files"; s2b "length"; s2b "name"; s2b "piece length"; s2b "pieces"].

(** A canonical file entry. *)
Definition canonical_file (v : bval) : Prop :=
  exists n path, v = BDict [(s2b "length", BInt n); (s2b "path", BList (map BStr path))] /\
    (n < 2 ^ 64)%N /\ Forall plain_text path.

(** Canonical metadata over the known keys: sorted keys, right types, required keys present. *)
Record canonical_metadata (d : list (bytes * bval)) : Prop := {
  cm_sorted : StronglySorted lex_lt (map fst d);
  cm_known : incl (map fst d) known_keys;
  cm_files : forall v, In (s2b "files", v) d -> exists vs, v = BList vs /\ Forall canonical_file vs;
  cm_length : forall v, In (s2b "length", v) d -> exists n, v = BInt n /\ (n < 2 ^ 64)%N;
  cm_name : exists s, In (s2b "name", BStr s) d /\ plain_text s;
  cm_piece_length : exists n, In (s2b "piece length", BInt n) d /\ (n < 2 ^ 64)%N;
  cm_pieces : exists s, In (s2b "pieces", BStr s) d /\ s <> [] /\ (N.of_nat (List.length s) < 2 ^ 64)%N
}.

(** A well-formed file entry (in any key order, extra keys allowed). *)
Definition is_text (s : bytes) : Prop := utf8_valid s = true.
Definition is_file (v : bval) (f : file) : Prop :=
  exists es vs, v = BDict es /\ last_binding es (s2b "length") = Some (BInt (f_length f)) /\
    last_binding es (s2b "path") = Some (BList vs) /\
    vs = map BStr (f_path f) /\ Forall is_text (f_path f).

(** The files kept from a list of entries: the well-formed ones, in order. *)
Inductive kept : list bval -> list file -> Prop :=
| kept_nil : kept [] []
| kept_good v f vs fs : is_file v f -> kept vs fs -> kept (v :: vs) (f :: fs)
| kept_bad v vs fs : (forall f, ~ is_file v f) -> kept vs fs -> kept (v :: vs) fs.

(** The files a torrent consists of: those listed, or one with the name and the length of the torrent. *)
Inductive consists_of (i : info) : list file -> Prop :=
| co_several fs : i_files i = Some fs -> consists_of i fs
| co_single n : i_files i = None -> i_length i = Some n -> consists_of i [{| f_path := [i_name i]; f_length := n |}].

(** Hexadecimal digits of either case. *)
Definition hex_value (b : N) : option N :=
  if ((48 <=? b) && (b <=? 57))%N then Some (b - 48)%N
  else if ((97 <=? b) && (b <=? 102))%N then Some (b - 97 + 10)%N
  else if ((65 <=? b) && (b <=? 70))%N then Some (b - 65 + 10)%N
  else None.
Fixpoint unhex (l : bytes) : option bytes :=
  match l with
  | [] => Some []
  | a :: b :: t =>
    match hex_value a, hex_value b, unhex t with
    | Some x, Some y, Some r => Some ((16 * x + y)%N :: r)
    | _, _, _ => None
    end
  | _ => None
  end.
