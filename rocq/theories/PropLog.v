(** PropLog: property C77 (the log file) *)
From Coq Require Import Permutation.
From Verif Require Import Base Utf8 ModelBencode ModelTorrent ModelWriter ModelTracker ModelStream ModelPeer ModelActors ModelCache
  ModelMain ModelLog ModelSha1 SpecTorrent SpecWriter SpecPieces SpecSystem SpecCache SpecMain SpecText SpecDisk SpecLog PropMain PropDisk ProofLog.

(** C77: starting the program empties test.log in the working directory, or makes it, and changes nothing else; it aborts exactly
    if a directory has that name. *)
Theorem C77_start : forall cwd d, (log_start cwd d = Panic <-> d (cwd ++ [s2b "test.log"]) = Some NDir) /\
  forall s, log_start cwd d = Ret s ->
    pr_disk (lg_process s) (cwd ++ [s2b "test.log"]) = Some (NFile []) /\
    (forall l, l <> cwd ++ [s2b "test.log"] -> pr_disk (lg_process s) l = d l) /\ pr_torrents (lg_process s) = [].
Proof. exact c77_start. Qed.
Print Assumptions C77_start.

(** C77: whatever is logged, and whenever: as long as no torrent has a file there, the log holds the lines logged since the start and
    nothing else, and apart from that file the program does the same as without a log (and so all that is stated in the other files
    holds with one). *)
Theorem C77_log_apart : forall sha1 p cwd d ops s, runs sha1 p cwd d ops s -> spares_log (lg_process s) ->
  same_but (cwd ++ [s2b "test.log"]) (lg_process s) (pr_run sha1 p cwd (process_init d) (acts ops)) /\
  pr_disk (lg_process s) (cwd ++ [s2b "test.log"]) = Some (NFile (List.concat (lines ops))).
Proof. exact c77_apart. Qed.
Print Assumptions C77_log_apart.

(** C77: in particular several torrents side by side (as in C58) come out right, whatever is logged. *)
Theorem C77_downloads_right : forall sha1 p cwd F T d ops s, runs sha1 p cwd d ops s ->
  apart (List.length (pr_torrents (lg_process s))) F T ->
  (forall t, (t < List.length (pr_torrents (lg_process s)))%nat -> disk_ready cwd (F t) d) ->
  told sha1 F T (lg_process s) ->
  (forall t f, (t < List.length (pr_torrents (lg_process s)))%nat -> In f (F t) -> hd [] (f_path f) <> s2b "test.log") ->
  some_collision sha1 T (lg_process s) \/
  forall t x i, nth_error (pr_torrents (lg_process s)) t = Some x -> ta_info (sy_actor x) = Some i ->
    (forall idx, (idx < piece_count (lenN (T t)) (i_piece_length i))%N -> In idx (written x)) ->
    forall k f, nth_error (F t) k = Some f -> (0 < f_length f)%N ->
      pr_disk (lg_process s) (cwd ++ f_path f) = Some (NFile (file_content (T t) (F t) k f)).
Proof. exact c77_right. Qed.
Print Assumptions C77_downloads_right.

(** C77: whatever stands in the file, and whoever wrote it: a line goes where the lines before it end, not to the end of the file, and
    changes nothing else. *)
Theorem C77_position : forall sha1 p cwd d ops line s s', runs sha1 p cwd d ops s -> runs sha1 p cwd d (ops ++ [Log line]) s' ->
  forall a, a = List.length (List.concat (lines ops)) ->
  exists c c', pr_disk (lg_process s) (cwd ++ [s2b "test.log"]) = Some (NFile c) /\
    pr_disk (lg_process s') (cwd ++ [s2b "test.log"]) = Some (NFile c') /\
    (forall l, l <> cwd ++ [s2b "test.log"] -> pr_disk (lg_process s') l = pr_disk (lg_process s) l) /\
    (forall j, (j < List.length line)%nat -> nth_error c' (a + j) = nth_error line j) /\
    (forall j, (j < List.length c)%nat -> (j < a \/ a + List.length line <= j)%nat -> nth_error c' j = nth_error c j).
Proof. exact c77_position. Qed.
Print Assumptions C77_position.

(** An execution in which a line is logged at the start and another one at the end, on a disk with an old log. *)
Definition xl_disk : fs := xd_one [s2b "home"; s2b "test.log"] (NFile (s2b "old")).
Definition xl_ops (name : bytes) : list lop := Log (s2b "started;") :: map Act (xd_ops name) ++ [Log (s2b "done;")].
Definition xl_start : logged :=
  {| lg_process := process_init (fs_set xl_disk (log_place xm_cwd) (NFile [])); lg_end := 0%N |}.
Definition xl_run (name : bytes) : logged := log_run sha1 Debug xm_cwd xl_start (xl_ops name).
Lemma xl_acts : forall name, acts (xl_ops name) = xd_ops name.
Proof.
  intros name. unfold xl_ops, acts. cbn [flat_map app]. rewrite flat_map_app. cbn [flat_map]. rewrite app_nil_r.
  induction (xd_ops name) as [|o l IH]; cbn [map flat_map app]; [auto|]. f_equal. auto.
Qed.
Lemma xl_runs : forall name, runs sha1 Debug xm_cwd xl_disk (xl_ops name) (xl_run name).
Proof.
  intros name. split; [rewrite xl_acts; ops_ok|]. exists xl_start. split; reflexivity.
Qed.
Lemma xl_infos : map (fun x => ta_info (sy_actor x)) (pr_torrents (lg_process (xl_run (s2b "x")))) = [Some (xm_info (s2b "x") xm_a)].
Proof. vm_compute. reflexivity. Qed.
Lemma xl_spares : spares_log (lg_process (xl_run (s2b "x"))).
Proof.
  intros path (x & i & files & f & I & E & C & If & ->). right.
  apply (in_map (fun x => ta_info (sy_actor x))) in I. rewrite E, xl_infos in I. destruct I as [I|[]].
  assert (Q : i = xm_info (s2b "x") xm_a) by congruence. clear I E. subst i.
  rewrite (xd_single (xm_info (s2b "x") xm_a) 5%N files f eq_refl eq_refl C If). split; [exact xm_sane_x|discriminate].
Qed.
Example C77_example : let s := xl_run (s2b "x") in
  runs sha1 Debug xm_cwd xl_disk (xl_ops (s2b "x")) s /\ spares_log (lg_process s) /\
  pr_disk (lg_process s) [s2b "home"; s2b "test.log"] = Some (NFile (s2b "started;done;")) /\
  pr_disk (lg_process s) [s2b "home"; s2b "x"] = Some (NFile xm_a) /\
  (exists a b, s2b "d/test.log" = a ++ s2b "test.log" ++ b /\ has_segment (s2b "test.log") (s2b "d/test.log")) /\
  ~ has_segment (s2b "test.log") (s2b "test.log.1").
Proof.
  cbv zeta. split; [exact (xl_runs (s2b "x"))|]. split; [exact xl_spares|].
  split; [vm_compute; reflexivity|]. split; [vm_compute; reflexivity|]. split.
  - exists (s2b "d/"), []. split; [reflexivity|]. exists (s2b "d/"), []. split; [reflexivity|]. split; [right; exists (s2b "d"); reflexivity|auto].
  - intros (a & b & E & [->|(a' & ->)] & B).
    + destruct B as [->|(b' & ->)]; discriminate.
    + assert (I : In 47%N (s2b "test.log.1")) by (rewrite E; apply in_or_app; left; apply in_or_app; right; left; reflexivity).
      vm_compute in I. intuition discriminate.
Qed.

(** C77: but a torrent may have a file of that name. Then its peers may be as honest as they like, all its pieces are written, and the
    file is wrong, because of what is logged; without the log it would be right. *)
Theorem C77_named_like_log_refuted : exists ops s x i f T,
  runs sha1 Debug xm_cwd xl_disk ops s /\ pr_torrents (lg_process s) = [x] /\ ta_info (sy_actor x) = Some i /\
  ta_info_hash (sy_actor x) = compute_info_hash sha1 i /\ describes sha1 i [f] T /\
  (forall idx, (idx < piece_count (lenN T) (i_piece_length i))%N -> In idx (written x)) /\
  pr_disk (pr_run sha1 Debug xm_cwd (process_init xm_empty) (acts ops)) (xm_cwd ++ f_path f) = Some (NFile T) /\
  pr_disk (lg_process s) (xm_cwd ++ f_path f) = Some (NFile (T ++ s2b "ed;done;")).
Proof.
  assert (SN : sane_path [s2b "test.log"]).
  { split; [discriminate|]. constructor; [|constructor]. split; [discriminate|]. split; [vm_compute; intuition discriminate|].
    split; [vm_compute; intuition discriminate|]. split; discriminate. }
  assert (E : map (fun x => (ta_info (sy_actor x), ta_info_hash (sy_actor x), written x)) (pr_torrents (lg_process (xl_run (s2b "test.log"))))
    = [(Some (xm_info (s2b "test.log") xm_a), xm_hash (s2b "test.log") xm_a, [0; 1]%N)] /\
    pr_disk (lg_process (xl_run (s2b "test.log"))) [s2b "home"; s2b "test.log"] = Some (NFile (xm_a ++ s2b "ed;done;"))) by (split; vm_compute; reflexivity).
  assert (D : pr_disk (pr_run sha1 Debug xm_cwd (process_init xm_empty) (acts (xl_ops (s2b "test.log")))) [s2b "home"; s2b "test.log"] = Some (NFile xm_a))
    by (rewrite xl_acts; vm_compute; reflexivity).
  pose proof (xl_runs (s2b "test.log")) as R. revert E R. generalize (xl_run (s2b "test.log")) as s. intros s [E D2] R.
  assert (LE := f_equal (@List.length _) E). rewrite map_length in LE. cbn [List.length] in LE.
  destruct (pr_torrents (lg_process s)) as [|x [|z l]] eqn:P; [discriminate LE| |discriminate LE]. cbn [map] in E.
  assert (A0 := f_equal (fun l => fst (fst (hd (None, [], []) l))) E).
  assert (B0 := f_equal (fun l => snd (fst (hd (None, [], []) l))) E).
  assert (C0 := f_equal (fun l => snd (hd (None, [], []) l)) E). cbn [hd fst snd] in A0, B0, C0. clear E.
  exists (xl_ops (s2b "test.log")), s, x, (xm_info (s2b "test.log") xm_a), {| f_path := [s2b "test.log"]; f_length := 5%N |}, xm_a.
  split; [exact R|]. split; [exact P|]. split; [exact A0|]. split; [exact B0|].
  split; [apply (xm_describes (s2b "test.log") xm_a); [exact SN|reflexivity]|].
  split; [|split; [exact D|exact D2]].
  intros idx L. rewrite C0. change (idx < 2)%N in L. destruct idx as [|[]]; cbn; auto; destruct p; discriminate.
Qed.
Print Assumptions C77_named_like_log_refuted.

(** The second line goes to where the first one ended, in the middle of the torrent's file. *)
Example C77_position_example :
  let ops := Log (s2b "a;") :: map Act (xd_ops (s2b "test.log")) ++ [Log (s2b "b;")] in
  let s := log_run sha1 Debug xm_cwd xl_start ops in
  runs sha1 Debug xm_cwd xl_disk ops s /\ xm_a = [1; 2; 3; 4; 5]%N /\
  pr_disk (lg_process s) [s2b "home"; s2b "test.log"] = Some (NFile ([1; 2]%N ++ s2b "b;" ++ [5]%N)).
Proof.
  cbv zeta. split; [|split; [reflexivity|vm_compute; reflexivity]]. split; [|exists xl_start; split; reflexivity].
  assert (A : acts (Log (s2b "a;") :: map Act (xd_ops (s2b "test.log")) ++ [Log (s2b "b;")]) = xd_ops (s2b "test.log")) by exact (xl_acts _).
  rewrite A. ops_ok.
Qed.
