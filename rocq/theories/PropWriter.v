(** PropWriter: properties C24-C27 (writing pieces to files) *)
From Verif Require Import Base ModelTorrent ModelWriter SpecWriter ProofWriter.

(** C24: a piece is cut into exactly the parts the layout demands. *)
Theorem C24_piece_split : forall p files piece idx plen,
  piece <> [] -> (total_length files < 2 ^ 64)%N -> (idx * plen + lenN piece < 2 ^ 64)%N ->
  exists ws, get_file_writers p files piece idx plen = Ret ws /\
    map (fun w => (fw_path w, fw_start w, fw_piece w)) ws = split_piece files 0 (idx * plen) piece /\
    List.concat (map fw_piece ws) = range 0 (total_length files - idx * plen) piece /\
    Forall (fun w => fw_end w = fw_start w + lenN (fw_piece w))%N ws.
Proof. exact c24. Qed.
Print Assumptions C24_piece_split.

(** C24: every byte goes to the file that contains its global position, at the right offset. *)
Theorem C24_byte_placement : forall p files piece idx plen ws,
  piece <> [] -> (total_length files < 2 ^ 64)%N -> (idx * plen + lenN piece < 2 ^ 64)%N ->
  get_file_writers p files piece idx plen = Ret ws ->
  (forall w, In w ws -> exists k f, nth_error files k = Some f /\ fw_path w = f_path f /\
     (fw_start w + lenN (fw_piece w) <= f_length f)%N /\
     forall j, (j < List.length (fw_piece w))%nat ->
       (idx * plen <= file_start files k + fw_start w + N.of_nat j)%N /\
       nth_error (fw_piece w) j
       = nth_error piece (N.to_nat (file_start files k + fw_start w + N.of_nat j - idx * plen))) /\
  (forall g k f, nth_error files k = Some f -> (file_start files k <= g < file_start files k + f_length f)%N ->
     (idx * plen <= g < idx * plen + lenN piece)%N ->
     exists w, In w ws /\ fw_path w = f_path f /\
       (fw_start w <= g - file_start files k < fw_start w + lenN (fw_piece w))%N).
Proof. exact c24_placement. Qed.
Print Assumptions C24_byte_placement.

(** C24: a piece that starts behind the last file is written nowhere. *)
Theorem C24_outside : forall p files piece idx plen, (total_length files < 2 ^ 64)%N -> (idx * plen < 2 ^ 64)%N ->
  (total_length files <= idx * plen)%N -> get_file_writers p files piece idx plen = Ret [].
Proof. exact c24_outside. Qed.
Print Assumptions C24_outside.

Definition ex_file (n : bytes) (l : N) : file := {| f_path := [n]; f_length := l |}.
Definition ex_files : list file :=
  [ex_file (s2b "a") 3; ex_file (s2b "z") 0; {| f_path := [s2b "d"; s2b "b"]; f_length := 4%N |}; ex_file (s2b "c") 2].

(** Piece 1 of length 4 over files of length 3, 0, 4, 2. *)
Example C24_example :
  match get_file_writers Debug ex_files [14; 15; 16; 17]%N 1 4 with
  | Ret ws => map (fun w => (fw_path w, fw_start w, fw_piece w)) ws
      = [([s2b "d"; s2b "b"], 1, [14; 15; 16]); ([s2b "c"], 0, [17])]%N
  | _ => False
  end.
Proof. vm_compute. reflexivity. Qed.

(** C24: the bound on the arithmetic is needed: in debug builds an overflow panics, in release
    builds the bytes land at a wrong place. *)
Theorem C24_overflow_refuted : exists files piece idx plen,
  get_file_writers Debug files piece idx plen = Panic /\
  get_file_writers Release files piece idx plen
  = Ret [{| fw_path := [s2b "a"]; fw_start := 0; fw_end := 1; fw_piece := [7%N] |}] /\
  (total_length files <= idx * plen)%N.
Proof.
  exists [ex_file (s2b "a") 3], [7%N], (2 ^ 32)%N, (2 ^ 32)%N. vm_compute. repeat split; discriminate.
Qed.
Print Assumptions C24_overflow_refuted.

(** C25: all pieces in any order, with repetitions, rebuild every non-empty file, and nothing else on
    the disk changes. ([disk_ready] holds of a disk on which none of the names exists.) *)
Theorem C25_reconstruct : forall p cwd files plen T order d,
  total_length files = lenN T -> (lenN T < 2 ^ 64)%N -> (0 < plen)%N ->
  good_files files -> disk_ready cwd files d ->
  Forall (fun i => i < piece_count (lenN T) plen)%N order ->
  (forall i, (i < piece_count (lenN T) plen)%N -> In i order) ->
  exists d2, write_pieces p cwd files plen T order d = Ret d2 /\
    (forall k f, nth_error files k = Some f -> (0 < f_length f)%N ->
       d2 (cwd ++ f_path f) = Some (NFile (file_content T files k f))) /\
    (forall l, unrelated cwd files l -> d2 l = d l).
Proof. exact c25. Qed.
Print Assumptions C25_reconstruct.

(** C25: exactly which empty files come into existence. *)
Theorem C25_empty_files : forall p cwd files plen T order d k f,
  total_length files = lenN T -> (lenN T < 2 ^ 64)%N -> (0 < plen)%N ->
  good_files files -> disk_ready cwd files d ->
  Forall (fun i => i < piece_count (lenN T) plen)%N order ->
  (forall i, (i < piece_count (lenN T) plen)%N -> In i order) ->
  nth_error files k = Some f -> f_length f = 0%N -> d (cwd ++ f_path f) = None ->
  exists d2, write_pieces p cwd files plen T order d = Ret d2 /\
    (d2 (cwd ++ f_path f) = Some (NFile []) <-> (file_start files k mod plen <> 0 /\ file_start files k < lenN T)%N) /\
    (d2 (cwd ++ f_path f) = None <-> ~ (file_start files k mod plen <> 0 /\ file_start files k < lenN T)%N).
Proof. exact c25_empty. Qed.
Print Assumptions C25_empty_files.

Definition ex_T : bytes := [10; 11; 12; 13; 14; 15; 16; 17; 18]%N.
Definition nothing : fs := fun _ => None.

Example C25_example :
  match write_pieces Release [s2b "home"] ex_files 4 ex_T [2; 0; 2; 1]%N nothing with
  | Ret d => map (fun f => d ([s2b "home"] ++ f_path f)) ex_files
      = [Some (NFile [10; 11; 12]); Some (NFile []); Some (NFile [13; 14; 15; 16]); Some (NFile [17; 18])]%N
      /\ d [s2b "home"; s2b "d"] = Some NDir /\ d [s2b "home"; s2b "e"] = None
  | _ => False
  end.
Proof. vm_compute. auto. Qed.

(** The hypotheses are satisfiable. *)
Example C25_hypotheses : good_files ex_files /\ disk_ready [s2b "home"] ex_files nothing /\
  total_length ex_files = lenN ex_T /\ piece_count (lenN ex_T) 4 = 3%N.
Proof.
  split; [|split; [|split; vm_compute; reflexivity]].
  - split.
    + repeat constructor; try discriminate; cbn; intuition discriminate.
    + intros [|[|[|[|i]]]] [|[|[|[|j]]]] f g Hi Hj N [c E]; cbn in Hi, Hj;
        try congruence; try (destruct i; discriminate); try (destruct j; discriminate);
        injection Hi as <-; injection Hj as <-; discriminate E.
  - intros f _. split; [intros; left; reflexivity|left; reflexivity].
Qed.

(** C25: an empty file at a piece boundary is never created. *)
Theorem C25_empty_file_missing_refuted : exists files plen T order f,
  In f files /\ (forall i, (i < piece_count (lenN T) plen)%N -> In i order) /\
  match write_pieces Release [] files plen T order nothing with
  | Ret d => d (f_path f) = None
  | _ => False
  end.
Proof.
  exists [ex_file (s2b "a") 2; ex_file (s2b "z") 0; ex_file (s2b "b") 2], 2%N, [1; 2; 3; 4]%N, [0; 1]%N, (ex_file (s2b "z") 0).
  split; [cbn; auto|]. split; [|vm_compute; reflexivity].
  intros i H. vm_compute in H. destruct i as [|[i|i|]]; cbn; try discriminate; auto.
  - destruct i; discriminate.
  - destruct i; discriminate.
Qed.
Print Assumptions C25_empty_file_missing_refuted.

(** C25: the number of bytes taken by the operating system is ignored: after a short write the file
    is incomplete although writing reports success. *)
Theorem C25_short_write_refuted : exists n d w d2, write_to_filesystem_n n [] d w = Ret d2 /\
  d2 (fw_path w) <> Some (NFile (fw_piece w)) /\ fw_start w = 0%N /\ d (fw_path w) = None.
Proof.
  exists 1%nat, nothing, {| fw_path := [s2b "a"]; fw_start := 0; fw_end := 2; fw_piece := [1; 2]%N |}.
  eexists. split; [vm_compute; reflexivity|]. vm_compute. split; [discriminate|auto].
Qed.
Print Assumptions C25_short_write_refuted.

(** C25: a file list in which one file lies inside another panics. *)
Theorem C25_conflicting_paths_refuted : exists files plen T order,
  total_length files = lenN T /\ Forall (fun f => sane_path (f_path f)) files /\
  write_pieces Release [] files plen T order nothing = Panic.
Proof.
  exists [ex_file (s2b "a") 1; {| f_path := [s2b "a"; s2b "b"]; f_length := 1%N |}], 1%N, [1; 2]%N, [0; 1]%N.
  split; [reflexivity|]. split; [|vm_compute; reflexivity].
  repeat constructor; try discriminate; cbn; intuition discriminate.
Qed.
Print Assumptions C25_conflicting_paths_refuted.

(** C26: whatever earlier runs left behind when they were cut off, a later complete run repairs it. *)
Theorem C26_resume : forall p p' cwd files plen T order d1 d2,
  total_length files = lenN T -> (lenN T < 2 ^ 64)%N -> (0 < plen)%N ->
  good_files files -> disk_ready cwd files d1 -> interrupted p cwd files plen T d1 d2 ->
  Forall (fun i => i < piece_count (lenN T) plen)%N order ->
  (forall i, (i < piece_count (lenN T) plen)%N -> In i order) ->
  exists d3, write_pieces p' cwd files plen T order d2 = Ret d3 /\
    (forall k f, nth_error files k = Some f -> (0 < f_length f)%N ->
       d3 (cwd ++ f_path f) = Some (NFile (file_content T files k f))) /\
    (forall l, unrelated cwd files l -> d3 l = d1 l).
Proof. exact c26. Qed.
Print Assumptions C26_resume.

(** C26: no interruption spoils a byte that is already at its place. *)
Theorem C26_no_damage : forall p cwd files plen T d1 d2,
  total_length files = lenN T -> (lenN T < 2 ^ 64)%N -> (0 < plen)%N ->
  good_files files -> disk_ready cwd files d1 -> interrupted p cwd files plen T d1 d2 ->
  disk_ready cwd files d2 /\ (forall g, holds cwd files T d1 g -> holds cwd files T d2 g) /\
  (forall l, unrelated cwd files l -> d2 l = d1 l).
Proof. exact c26_ready. Qed.
Print Assumptions C26_no_damage.

Example C26_example :
  let d1 := fs_set nothing [s2b "c"] (NFile [99]%N) in
  match get_file_writers Debug ex_files (torrent_piece ex_T 4 1) 1 4 with
  | Ret (w :: _) =>
    match write_to_filesystem_n 2 [] d1 w with
    | Ret d2 => d2 [s2b "d"; s2b "b"] = Some (NFile [0; 14; 15]%N) /\
      match write_pieces Debug [] ex_files 4 ex_T [1; 2; 0]%N d2 with
      | Ret d3 => d3 [s2b "d"; s2b "b"] = Some (NFile [13; 14; 15; 16]%N) /\ d3 [s2b "c"] = Some (NFile [17; 18]%N)
      | _ => False
      end
    | _ => False
    end
  | _ => False
  end.
Proof. vm_compute. auto. Qed.

(** C26: a file that is already there and longer keeps its old tail. *)
Theorem C26_stale_tail_refuted : exists files plen T order d f,
  In f files /\ (forall i, (i < piece_count (lenN T) plen)%N -> In i order) /\ total_length files = lenN T /\
  match write_pieces Release [] files plen T order d with
  | Ret d2 => d2 (f_path f) = Some (NFile (T ++ [9%N]))
  | _ => False
  end.
Proof.
  exists [ex_file (s2b "a") 2], 2%N, [1; 2]%N, [0%N], (fs_set nothing [s2b "a"] (NFile [7; 8; 9]%N)), (ex_file (s2b "a") 2).
  split; [cbn; auto|]. split; [|split; vm_compute; reflexivity].
  intros i H. vm_compute in H. destruct i as [|[i|i|]]; cbn; try discriminate; auto.
Qed.
Print Assumptions C26_stale_tail_refuted.

(** C27: with plain names only the file itself and missing directories on the way to it change, all
    below the working directory. *)
Theorem C27_inside_working_directory : forall acc cwd d w, sane_path (fw_path w) ->
  (exists d2, write_to_filesystem_n acc cwd d w = Ret d2 /\
     forall l, d2 l <> d l -> exists q r, fw_path w = q ++ r /\ q <> [] /\ l = cwd ++ q /\
       (r <> [] -> d l = None /\ d2 l = Some NDir) /\
       (r = [] -> exists c', d2 l = Some (NFile c')))
  \/ write_to_filesystem_n acc cwd d w = Panic.
Proof. exact c27. Qed.
Print Assumptions C27_inside_working_directory.

(** C27: and the write goes through exactly if nothing on the way is in conflict. *)
Theorem C27_success : forall acc cwd d w, sane_path (fw_path w) ->
  ((exists d2, write_to_filesystem_n acc cwd d w = Ret d2) <->
   (forall q r, fw_path w = q ++ r -> q <> [] -> r <> [] -> d (cwd ++ q) = None \/ d (cwd ++ q) = Some NDir) /\
   d (cwd ++ fw_path w) <> Some NDir).
Proof. exact c27_success. Qed.
Print Assumptions C27_success.

Example C27_example : sane_path [s2b "d"; s2b "..b"] /\
  match write_to_filesystem [s2b "home"] nothing {| fw_path := [s2b "d"; s2b "..b"]; fw_start := 1; fw_end := 2; fw_piece := [5%N] |} with
  | Ret d => d [s2b "home"; s2b "d"; s2b "..b"] = Some (NFile [0; 5]%N) /\ d [s2b "home"; s2b "d"] = Some NDir
  | _ => False
  end.
Proof. split; [|vm_compute; auto]. repeat constructor; try discriminate; cbn; intuition discriminate. Qed.

(** C27: a component ".." leads out of the working directory, and so does one that begins with '/'. *)
Theorem C27_traversal_refuted : exists cwd path1 path2 l1 l2,
  (forall q, l1 <> cwd ++ q) /\ (forall q, l2 <> cwd ++ q) /\
  (exists d2, write_to_filesystem cwd nothing {| fw_path := path1; fw_start := 0; fw_end := 1; fw_piece := [6%N] |} = Ret d2 /\
     d2 l1 = Some (NFile [6%N])) /\
  (exists d2, write_to_filesystem cwd nothing {| fw_path := path2; fw_start := 0; fw_end := 1; fw_piece := [6%N] |} = Ret d2 /\
     d2 l2 = Some (NFile [6%N])).
Proof.
  exists [s2b "home"; s2b "me"], [s2b ".."; s2b "you"; s2b "x"], [s2b "/etc"; s2b "x"],
    [s2b "home"; s2b "you"; s2b "x"], [s2b "etc"; s2b "x"].
  split; [intros q E; discriminate E|]. split; [intros q E; discriminate E|].
  split; (eexists; split; [vm_compute; reflexivity|vm_compute; reflexivity]).
Qed.
Print Assumptions C27_traversal_refuted.
