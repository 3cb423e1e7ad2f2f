(** PropDisk: property C65 (what the program can do to a disk, and when it gives up on it) *)
From Coq Require Import Permutation.
From Verif Require Import Base Utf8 ModelBencode ModelTorrent ModelWriter ModelTracker ModelStream ModelPeer ModelActors ModelCache
  ModelMain ModelSha1 SpecTorrent SpecWriter SpecPieces SpecSystem SpecCache SpecMain SpecText SpecDisk PropMain ProofDisk.

(** C65: whatever links are added, whatever the peers send and whatever aborts: no directory and no file
    ever disappears, and no file gets shorter except saved descriptions of torrents that were asked for. *)
Theorem C65_nothing_lost : forall sha1 p cwd d ops s, started sha1 p cwd d ops s ->
  kept_except (description_of encode_binary cwd (accepted p ops)) d (pr_disk s).
Proof. exact c65_kept. Qed.
Print Assumptions C65_nothing_lost.

(** C65: and a saved description is only replaced when the old file was not even text. *)
Theorem C65_descriptions_replaced : forall sha1 p cwd d ops s o, started sha1 p cwd d ops s -> pop_ok o ->
  kept_except (fun l => description_of encode_binary cwd (accepted p ops) l /\ not_text (pr_disk s) l)
    (pr_disk s) (pr_disk (pr_step sha1 p cwd s o)).
Proof. exact c65_step. Qed.
Print Assumptions C65_descriptions_replaced.

(** C65: if the torrents' paths are plain, everything that changed is a file of a torrent, a new directory on
    the way to one, a saved description or the new directory of the descriptions: nothing outside the
    working directory. *)
Theorem C65_confined : forall sha1 p cwd d ops s, started sha1 p cwd d ops s -> plain_paths s ->
  forall l, pr_disk s l = d l \/ for_a_file cwd s d (pr_disk s) l \/
    for_a_description encode_binary cwd (accepted p ops) d (pr_disk s) l.
Proof. exact c65_confined. Qed.
Print Assumptions C65_confined.

Definition xd_ops (name : bytes) : list pop := xm_add (xm_hash name xm_a) ++ xm_download 0 name xm_a.
Definition xd_one (l : loc) (n : node) : fs := fun l' => if loc_eqb l l' then Some n else None.

Lemma xd_single : forall i n files f, i_files i = None -> i_length i = Some n -> consists_of i files -> In f files -> f_path f = [i_name i].
Proof. intros i n files f F L C I. inversion C; [congruence|]. subst files. destruct I as [<-|[]]. reflexivity. Qed.
Lemma xd_plain : plain_paths (xm_run (xm_two (s2b "x") (s2b "y"))).
Proof.
  intros path (x & i & files & f & I & E & C & If & ->).
  apply (in_map (fun x => ta_info (sy_actor x))) in I. rewrite E in I.
  assert (M : map (fun x => ta_info (sy_actor x)) (pr_torrents (xm_run (xm_two (s2b "x") (s2b "y"))))
              = [Some (xm_info (s2b "x") xm_a); Some (xm_info (s2b "y") xm_b)]) by (vm_compute; reflexivity).
  rewrite M in I. clear M E. destruct I as [I|[I|[]]].
  - assert (Q : i = xm_info (s2b "x") xm_a) by congruence. clear I. subst i.
    rewrite (xd_single (xm_info (s2b "x") xm_a) 5%N files f eq_refl eq_refl C If). exact xm_sane_x.
  - assert (Q : i = xm_info (s2b "y") xm_b) by congruence. clear I. subst i.
    rewrite (xd_single (xm_info (s2b "y") xm_b) 5%N files f eq_refl eq_refl C If). exact xm_sane_y.
Qed.
Example C65_example : let s := xm_run (xm_two (s2b "x") (s2b "y")) in
  started sha1 Debug xm_cwd xm_empty (xm_two (s2b "x") (s2b "y")) s /\ plain_paths s /\
  for_a_file xm_cwd s xm_empty (pr_disk s) [s2b "home"; s2b "x"] /\
  pr_disk s [s2b "home"; s2b "downloads"] = Some NDir /\
  (exists c, pr_disk s [s2b "home"; s2b "downloads"; encode_binary (xm_hash (s2b "x") xm_a)] = Some (NFile c) /\ (0 < lenN c)%N).
Proof.
  cbv zeta. split; [split; [ops_ok|reflexivity]|]. split; [exact xd_plain|]. split; [|split].
  - exists [s2b "x"], [s2b "x"], []. split; [|split; [auto|split; [auto|left; split; [auto|exists xm_a; vm_compute; reflexivity]]]].
    assert (M : map (fun x => ta_info (sy_actor x)) (pr_torrents (xm_run (xm_two (s2b "x") (s2b "y"))))
              = [Some (xm_info (s2b "x") xm_a); Some (xm_info (s2b "y") xm_b)]) by (vm_compute; reflexivity).
    destruct (pr_torrents (xm_run (xm_two (s2b "x") (s2b "y")))) as [|x l] eqn:EL; [discriminate|]. injection M as M _.
    exists x, (xm_info (s2b "x") xm_a), [{| f_path := [s2b "x"]; f_length := 5%N |}], {| f_path := [s2b "x"]; f_length := 5%N |}.
    split; [rewrite EL; left; auto|]. split; [exact M|]. split; [|split; [left; auto|auto]].
    apply (co_single (xm_info (s2b "x") xm_a) 5); reflexivity.
  - vm_compute. reflexivity.
  - eexists. split; vm_compute; reflexivity.
Qed.

(** C65: with other paths the claim is false: a link and peers that tell the truth about what the link names
    overwrite a file outside the working directory. *)
Theorem C65_stays_inside_refuted : exists d ops s l,
  started sha1 Debug xm_cwd d ops s /\ ~ is_prefix xm_cwd l /\
  d l = Some (NFile [9; 9; 9; 9; 9; 9]%N) /\ pr_disk s l = Some (NFile [1; 2; 3; 4; 5; 9]%N).
Proof.
  exists (xd_one [s2b "x"] (NFile [9; 9; 9; 9; 9; 9]%N)), (xd_ops (s2b "../x")),
    (pr_run sha1 Debug xm_cwd (process_init (xd_one [s2b "x"] (NFile [9; 9; 9; 9; 9; 9]%N))) (xd_ops (s2b "../x"))), [s2b "x"].
  split; [split; [ops_ok|reflexivity]|]. split; [intros (c & H); discriminate|]. split; vm_compute; reflexivity.
Qed.
Print Assumptions C65_stays_inside_refuted.

(** C65: writing a piece aborts exactly if something is in the way of a file that the piece belongs to: a file
    in place of a directory, or a directory in place of the file. *)
Theorem C65_write_aborts : forall p cwd d piece idx files plen, good_files files -> piece <> [] ->
  (total_length files < 2 ^ 64)%N -> (idx * plen + lenN piece < 2 ^ 64)%N ->
  write p cwd d piece idx files plen <> OutOfFuel /\
  (write p cwd d piece idx files plen = Panic <->
   exists k f, nth_error files k = Some f /\ blocked cwd d (f_path f) /\
     (file_start files k < idx * plen + lenN piece)%N /\ (idx * plen < file_start files k + f_length f)%N).
Proof. exact c65_write_aborts. Qed.
Print Assumptions C65_write_aborts.

(** C65: a file called "", "." or ".." aborts the write, and leaves at most new directories behind. *)
Theorem C65_unusable_names : forall p cwd d piece idx plen dirs n len,
  In n [[]; s2b "."; s2b ".."] -> Forall (fun m => ~ In 47%N m) dirs ->
  piece <> [] -> (len < 2 ^ 64)%N -> (idx * plen < len)%N -> (idx * plen + lenN piece < 2 ^ 64)%N ->
  let files := [{| f_path := dirs ++ [n]; f_length := len |}] in
  write p cwd d piece idx files plen = Panic /\
  (forall l, write_left p cwd d piece idx files plen l = d l \/
     (d l = None /\ write_left p cwd d piece idx files plen l = Some NDir)).
Proof. exact c65_unusable. Qed.
Print Assumptions C65_unusable_names.

(** C65: after a write that aborted, that torrent writes nothing any more, whatever happens. *)
Theorem C65_abort_is_final : forall sha1 p cwd s t x r rest ops, Forall pop_ok ops ->
  nth_error (pr_torrents s) t = Some x -> sy_writer x = r :: rest -> sy_writer_dead x = false ->
  write p cwd (pr_disk s) (rd_piece r) (rd_idx r) (rd_files r) (rd_piece_length r) = Panic ->
  let s' := pr_run sha1 p cwd s (PWrite t :: ops) in
  pr_disk (pr_step sha1 p cwd s' (PWrite t)) = pr_disk s'.
Proof. exact c65_abort. Qed.
Print Assumptions C65_abort_is_final.

(** A torrent of two files of which the second is blocked: the first piece lies in the first file and is
    written, the second piece aborts. *)
Definition xd_files : list file :=
  [{| f_path := [s2b "d"; s2b "u"]; f_length := 3%N |}; {| f_path := [s2b "v"]; f_length := 2%N |}].
Example C65_example_aborts :
  blocked xm_cwd (xd_one [s2b "home"; s2b "v"] NDir) [s2b "v"] /\
  write Debug xm_cwd (xd_one [s2b "home"; s2b "v"] NDir) [1; 2; 3]%N 0 xd_files 3 <> Panic /\
  write Debug xm_cwd (xd_one [s2b "home"; s2b "v"] NDir) [4; 5]%N 1 xd_files 3 = Panic /\
  write Debug xm_cwd (xd_one [s2b "home"; s2b "d"] (NFile [])) [1; 2; 3]%N 0 xd_files 3 = Panic.
Proof. split; [right; reflexivity|]. split; [vm_compute; discriminate|]. split; vm_compute; reflexivity. Qed.
(** A download whose file cannot be written because a directory has its name; all its pieces arrive. *)
Example C65_example_abort_is_final :
  let s := pr_run sha1 Debug xm_cwd (process_init (xd_one [s2b "home"; s2b "x"] NDir)) (removelast (removelast (xd_ops (s2b "x")))) in
  exists x r r', nth_error (pr_torrents s) 0 = Some x /\ sy_writer x = [r; r'] /\ sy_writer_dead x = false /\
    write Debug xm_cwd (pr_disk s) (rd_piece r) (rd_idx r) (rd_files r) (rd_piece_length r) = Panic.
Proof.
  cbv zeta.
  set (s := pr_run sha1 Debug xm_cwd (process_init (xd_one [s2b "home"; s2b "x"] NDir)) (removelast (removelast (xd_ops (s2b "x"))))).
  assert (E : option_map (fun x => (sy_writer x, sy_writer_dead x)) (nth_error (pr_torrents s) 0) =
    Some ([{| rd_piece := [1; 2; 3]%N; rd_idx := 0%N; rd_files := [{| f_path := [s2b "x"]; f_length := 5%N |}]; rd_piece_length := 3%N |};
           {| rd_piece := [4; 5]%N; rd_idx := 1%N; rd_files := [{| f_path := [s2b "x"]; f_length := 5%N |}]; rd_piece_length := 3%N |}], false))
    by (vm_compute; reflexivity).
  destruct (nth_error (pr_torrents s) 0) as [x|] eqn:EX; [|discriminate]. cbn [option_map] in E. injection E as E1 E2.
  exists x. do 2 eexists. split; [auto|]. split; [exact E1|]. split; [exact E2|]. cbn [rd_piece rd_idx rd_files rd_piece_length]. vm_compute. reflexivity.
Qed.

(** C65: saving a description aborts exactly if a directory has its name, ... *)
Theorem C65_save_aborts : forall accept d l i,
  save accept d l i <> OutOfFuel /\ (save accept d l i = Panic <-> d l = Some NDir).
Proof. exact c65_save_aborts. Qed.
Print Assumptions C65_save_aborts.

(** C65: ... and getting one aborts exactly if "downloads" is a file, the saved file is text but describes no
    torrent, or there is nothing readable and then the exchange with the peer aborts or succeeds while a
    directory has the name of the saved file. *)
Theorem C65_description_aborts : forall accept fuel cwd d net pid h ep,
  let place := in_downloads cwd (encode_binary h) in
  collect_info accept fuel cwd d net pid h ep = Panic <->
  (exists c, d (cwd ++ [s2b "downloads"]) = Some (NFile c)) \/
  (exists c, d place = Some (NFile c) /\ (exists ns, text_of ns c) /\ forall i, ~ describes_torrent c i) \/
  ((d place = None \/ d place = Some NDir \/ not_text d place) /\
   (get_info fuel net pid h ep = Panic \/ (d place = Some NDir /\ exists i, get_info fuel net pid h ep = Ret (Ok i)))).
Proof. exact c65_description_aborts. Qed.
Print Assumptions C65_description_aborts.
Example C65_example_description :
  let h := repeat 65%N 20 in
  collect_info 100 9 xm_cwd (xd_one [s2b "home"; s2b "downloads"] (NFile [])) None xm_pid h (s2b "1.2.3.4:5") = Panic /\
  collect_info 100 9 xm_cwd (xd_one (in_downloads xm_cwd (encode_binary h)) (NFile (s2b "{}"))) None xm_pid h (s2b "1.2.3.4:5") = Panic /\
  (exists d', collect_info 100 9 xm_cwd (xd_one (in_downloads xm_cwd (encode_binary h)) (NFile [255%N])) None xm_pid h (s2b "1.2.3.4:5") = Ret (None, d')).
Proof. cbv zeta. split; [vm_compute; reflexivity|]. split; [vm_compute; reflexivity|]. eexists. vm_compute. reflexivity. Qed.
