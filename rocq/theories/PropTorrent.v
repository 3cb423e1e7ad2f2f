(** PropTorrent: properties C09-C11 (metadata) and C18 (magnet links) *)
From Coq Require Import Sorted.
From Verif Require Import Base Utf8 SpecBencode SpecTorrent ModelBencode ModelTorrent ProofTorrent.

(** C09: an Info survives encoding and parsing. *)
Theorem C09_info_round_trip : forall i, plain_info i -> info_from_bytes (enc_info i) = Ret (Ok i).
Proof. exact c09. Qed.
Print Assumptions C09_info_round_trip.

(** C09: the bytes produced are the canonical metadata dictionary. *)
Theorem C09_info_encoding_canonical : forall i, plain_info i -> enc_info i = benc (info_value i).
Proof. exact enc_info_canonical. Qed.
Print Assumptions C09_info_encoding_canonical.

Definition info_example : info :=
  {| i_files := Some [ {| f_path := [s2b "dir"; s2b "a.txt"]; f_length := 5 |};
                       {| f_path := [s2b "b"]; f_length := 0 |} ];
     i_length := None; i_name := s2b "t"; i_piece_length := 16384; i_pieces := s2b "01234567890123456789" |}.
Example C09_example : plain_info info_example.
Proof.
  unfold plain_info, info_example, plain_file, plain_text. cbn [i_files i_length i_name i_piece_length i_pieces].
  split; [|split; [discriminate|split; [|split; [reflexivity|split; [discriminate|reflexivity]]]]].
  - intros fs E. injection E as <-.
    repeat (constructor; [split; [repeat (constructor; [split; [repeat constructor|split; [discriminate|reflexivity]]|]); constructor|reflexivity]|]).
    constructor.
  - split; [repeat constructor|split; [discriminate|reflexivity]].
Qed.

(** C09: texts must be ASCII: with a non-ASCII name the encoding is not parsed back. *)
Theorem C09_non_ascii_name_refuted : exists i, is_text (i_name i) /\ i_name i <> [] /\
  info_from_bytes (enc_info i) <> Ret (Ok i).
Proof.
  exists {| i_files := None; i_length := Some 1%N; i_name := [195; 169]%N; i_piece_length := 1;
            i_pieces := s2b "01234567890123456789" |}.
  split; [reflexivity|]. split; [discriminate|]. vm_compute. discriminate.
Qed.
Print Assumptions C09_non_ascii_name_refuted.

(** C10: for canonical metadata over the known keys the recomputed hash is the hash of the bytes. *)
Theorem C10_info_hash_of_bytes : forall sha1 d, canonical_metadata d ->
  exists i, info_from_bytes (benc (BDict d)) = Ret (Ok i) /\
            compute_info_hash sha1 i = sha1 (benc (BDict d)).
Proof. exact c10. Qed.
Print Assumptions C10_info_hash_of_bytes.

(** C10: with any further key the re-encoding differs from the received bytes. *)
Theorem C10_extra_key_changes_bytes : forall d i k,
  decodable is_text (BDict d) -> distinct_keys (BDict d) ->
  In k (map fst d) -> ~ In k known_keys -> plain_info i ->
  info_from_bytes (benc (BDict d)) = Ret (Ok i) ->
  enc_info i <> benc (BDict d).
Proof. exact c10_extra. Qed.
Print Assumptions C10_extra_key_changes_bytes.

Definition metadata_example : list (bytes * bval) :=
  [(s2b "length", BInt 3); (s2b "name", BStr (s2b "t")); (s2b "piece length", BInt 16384);
   (s2b "pieces", BStr (s2b "01234567890123456789"))].
Example C10_example : canonical_metadata metadata_example.
Proof.
  constructor; cbn [map fst metadata_example].
  - repeat (constructor; [|repeat (constructor; [cbn; intuition lia|]); constructor]); constructor.
  - intros k H. unfold known_keys. cbn [In] in *. intuition.
  - intros v [E|[E|[E|[E|[]]]]]; discriminate.
  - intros v [E|[E|[E|[E|[]]]]]; try discriminate. injection E as <-. exists 3%N. split; reflexivity.
  - exists (s2b "t"). split; [cbn; auto|]. split; [repeat constructor|split; [discriminate|reflexivity]].
  - exists 16384%N. split; [cbn; auto|reflexivity].
  - exists (s2b "01234567890123456789"). split; [cbn; auto 6|]. split; [discriminate|reflexivity].
Qed.
Example C10_extra_example :
  let d := metadata_example ++ [(s2b "private", BInt 1)] in
  exists i, info_from_bytes (benc (BDict d)) = Ret (Ok i) /\ i_length i = Some 3%N.
Proof. eexists. split; vm_compute; reflexivity. Qed.

(** C11: exactly which metadata is accepted and what it is taken to mean. *)
Theorem C11_info_acceptance : forall es suf, decodable is_text (BDict es) -> distinct_keys (BDict es) ->
  exists r, info_from_bytes (benc (BDict es) ++ suf) = Ret r /\
  forall i, r = Ok i <->
    last_binding es (s2b "pieces") = Some (BStr (i_pieces i)) /\
    last_binding es (s2b "piece length") = Some (BInt (i_piece_length i)) /\
    last_binding es (s2b "name") = Some (BStr (i_name i)) /\ is_text (i_name i) /\
    (forall n, i_length i = Some n <-> last_binding es (s2b "length") = Some (BInt n)) /\
    (match i_files i with
     | Some fs => exists vs, last_binding es (s2b "files") = Some (BList vs) /\ kept vs fs
     | None => forall vs, last_binding es (s2b "files") <> Some (BList vs)
     end).
Proof. exact c11. Qed.
Print Assumptions C11_info_acceptance.

(** C11: anything but a dictionary is an error. *)
Theorem C11_not_a_dictionary : forall v suf, decodable is_text v -> distinct_keys v ->
  (forall es, v <> BDict es) -> exists e, info_from_bytes (benc v ++ suf) = Ret (Err e).
Proof. exact c11_not_dict. Qed.
Print Assumptions C11_not_a_dictionary.

(** C11: the files of an Info are those listed, or one with its name and length. *)
Theorem C11_files : forall i fs, get_files i = Ok fs <-> consists_of i fs.
Proof. exact c11_files. Qed.
Print Assumptions C11_files.
Example C11_files_example : consists_of
  {| i_files := None; i_length := Some 3%N; i_name := s2b "t"; i_piece_length := 1; i_pieces := [] |}
  [{| f_path := [s2b "t"]; f_length := 3 |}].
Proof. apply co_single; reflexivity. Qed.

(** C11: an Info with neither length nor files has no total length. *)
Theorem C11_no_length_aborts : forall p i, i_files i = None -> i_length i = None ->
  get_total_length p i = Panic /\ get_files i = Err IENoFileLength.
Proof. exact c11_no_length. Qed.
Print Assumptions C11_no_length_aborts.

(** C11: such metadata is accepted. *)
Theorem C11_no_length_accepted_refuted : exists b i, info_from_bytes b = Ret (Ok i) /\
  forall p, get_total_length p i = Panic.
Proof.
  exists (s2b "d4:name1:t12:piece lengthi1e6:pieces1:xe").
  eexists. split; [vm_compute; reflexivity|]. intros p. reflexivity.
Qed.
Print Assumptions C11_no_length_accepted_refuted.

(** C11: a malformed entry vanishes, so the following file takes its place at offset 0. *)
Theorem C11_malformed_file_dropped_refuted : exists i f,
  info_from_bytes (s2b "d5:filesld6:lengthi7eed6:lengthi3e4:pathl1:beee4:name1:t12:piece lengthi1e6:pieces1:xe")
    = Ret (Ok i) /\ get_files i = Ok [f] /\ f_path f = [s2b "b"] /\
  forall p, get_total_length p i = Ret 3%N.
Proof.
  eexists _, _. split; [vm_compute; reflexivity|]. split; [reflexivity|].
  split; [reflexivity|]. intros p. reflexivity.
Qed.
Print Assumptions C11_malformed_file_dropped_refuted.

Example C11_example :
  let v := BList [BDict [(s2b "length", BInt 7)]; file_value {| f_path := [s2b "b"]; f_length := 3 |}] in
  exists vs, v = BList vs /\ kept vs [ {| f_path := [s2b "b"]; f_length := 3 |} ].
Proof.
  eexists. split; [reflexivity|]. apply kept_bad.
  - intros f (es & vs & E & _ & P & _). injection E as <-. vm_compute in P. discriminate.
  - apply kept_good; [|constructor]. eexists _, _. split; [reflexivity|].
    split; [reflexivity|]. split; [reflexivity|]. split; [reflexivity|]. repeat constructor.
Qed.

(** C18: a magnet link with forty hexadecimal digits of either case. *)
Theorem C18_hex_magnet : forall p x h rest r,
  List.length x = 12%nat -> List.length h = 40%nat -> unhex h = Some r ->
  parse_magnet p (s2b "magnet:?" ++ x ++ h ++ s2b "&" ++ rest) = Ret (Ok r).
Proof. exact c18_good. Qed.
Print Assumptions C18_hex_magnet.

(** C18: rejected links. *)
Theorem C18_rejected : forall p m,
  (List.length m < 60)%nat \/ firstn 8 m <> s2b "magnet:?" -> parse_magnet p m = Ret (Err tt).
Proof. exact c18_rejected. Qed.
Print Assumptions C18_rejected.

(** C18: a link that ends right after the hash panics. *)
Theorem C18_sixty_bytes_panics : forall p m, List.length m = 60%nat -> firstn 8 m = s2b "magnet:?" ->
  parse_magnet p m = Panic.
Proof. exact c18_sixty. Qed.
Print Assumptions C18_sixty_bytes_panics.

(** C18: without [&] after forty characters, 32 undecoded bytes are taken. *)
Theorem C18_undecoded : forall p m b, firstn 8 m = s2b "magnet:?" -> nth_error m 60 = Some b -> b <> 38%N ->
  parse_magnet p m = Ret (Ok (firstn 32 (skipn 20 m))).
Proof. exact c18_other. Qed.
Print Assumptions C18_undecoded.

(** C18: every longer link gives 20 or 32 bytes, except that a debug build panics on a character
    below ['0']. *)
Theorem C18_total : forall p m, firstn 8 m = s2b "magnet:?" -> (60 < List.length m)%nat ->
  (exists h, parse_magnet p m = Ret (Ok h) /\ (List.length h = 20%nat \/ List.length h = 32%nat)) \/
  (p = Debug /\ parse_magnet p m = Panic /\
   exists k b, (20 <= k < 60)%nat /\ nth_error m k = Some b /\ (b < 48)%N).
Proof. exact c18_total. Qed.
Print Assumptions C18_total.

(** C18: characters that are no hexadecimal digits are not rejected. *)
Theorem C18_non_hex_accepted_refuted : exists h r, List.length h = 40%nat /\ unhex h = None /\
  forall p, parse_magnet p (s2b "magnet:?xt=urn:btih:" ++ h ++ s2b "&dn=x") = Ret (Ok r).
Proof.
  exists (s2b "zzzzzzzzzzzzzzzzzzzzzzzzzzzzzzzzzzzzzzzz"). eexists.
  split; [reflexivity|]. split; [reflexivity|]. intros []; vm_compute; reflexivity.
Qed.
Print Assumptions C18_non_hex_accepted_refuted.

Example C18_example :
  unhex (s2b "0123456789abcdefABCDEF0123456789abcdef01") =
  Some [1;35;69;103;137;171;205;239;171;205;239;1;35;69;103;137;171;205;239;1]%N /\
  List.length (s2b "xt=urn:btih:") = 12%nat.
Proof. vm_compute. auto. Qed.
