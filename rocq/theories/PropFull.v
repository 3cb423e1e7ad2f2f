(** PropFull: property C87 (a disk that does not take everything) *)
From Coq Require Import Permutation.
From Verif Require Import Base ModelTorrent ModelWriter ModelPeer ModelActors ModelFull SpecWriter SpecSystem SpecGap SpecFull PropPeer PropSystem ProofFull.

(** C87: with a disk that takes everything this is the torrent of the other properties. *)
Theorem C87_all_taken : forall sha1 p cwd ops s, Forall (fun o => forall k, snd o k = VAll) ops ->
  sys_run_v sha1 p cwd s ops = sys_run sha1 p cwd s (map fst ops).
Proof. exact c87_all. Qed.
Print Assumptions C87_all_taken.

(** C87: whatever the disk refuses, only the writer knows: everything else is as if the disk took everything. *)
Theorem C87_unnoticed : forall sha1 p cwd ih d ops,
  alike_but_disk (sys_run_v sha1 p cwd (sys_init ih d) ops) (sys_run sha1 p cwd (sys_init ih d) (map fst ops)).
Proof. exact c87_unnoticed. Qed.
Print Assumptions C87_unnoticed.

(** C87: whatever the disk refuses, at every moment: each byte of each file is the right one, or the one that was there before, or a zero where
    nothing was; what was right stays right; nothing else on the disk changes; the files can be written later. *)
Theorem C87_no_damage : forall sha1 p cwd ih d s i files T, reached_v sha1 p cwd ih d s ->
  ta_info (sy_actor s) = Some i -> describes sha1 i files T -> disk_ready cwd files d ->
  collision sha1 (i_piece_length i) T s \/
  (disk_ready cwd files (sy_disk s) /\ accounted cwd files T d (sy_disk s) /\ (forall g, holds cwd files T d g -> holds cwd files T (sy_disk s) g) /\
   (forall l, unrelated cwd files l -> sy_disk s l = d l)).
Proof. exact c87_no_damage. Qed.
Print Assumptions C87_no_damage.

(** C87: what the disk did not take of a piece is never written again, however much room there is later. *)
Theorem C87_never_again : forall sha1 p cwd ih d ops1 ops2 i files T, Forall (fun o => op_ok (fst o)) (ops1 ++ ops2) ->
  let s := sys_run_v sha1 p cwd (sys_init ih d) ops1 in let s' := sys_run_v sha1 p cwd s ops2 in
  ta_info (sy_actor s') = Some i -> describes sha1 i files T ->
  forall idx, In idx (completed s) -> ~ In idx (map rd_idx (sy_writer s)) ->
  collision sha1 (i_piece_length i) T s' \/ left_alone cwd files (i_piece_length i) idx (sy_disk s) (sy_disk s').
Proof. exact c87_never_again. Qed.
Print Assumptions C87_never_again.

(** C87: after the first error of the disk nothing is written any more. *)
Theorem C87_gives_up : forall sha1 p cwd s ops, sy_writer_dead s = true ->
  let s' := sys_run_v sha1 p cwd s ops in sy_disk s' = sy_disk s /\ sy_writer_dead s' = true.
Proof. exact c87_gives_up. Qed.
Print Assumptions C87_gives_up.

(** C87: what a write does: the writer ends exactly if a call fails for one of the files that the piece meets, and only then; otherwise each
    byte that was taken is at its place. *)
Theorem C87_errors : forall sha1 p cwd ih d s i files T vs r rest, reached_v sha1 p cwd ih d s ->
  ta_info (sy_actor s) = Some i -> describes sha1 i files T -> disk_ready cwd files d ->
  sy_writer_dead s = false -> sy_writer s = r :: rest ->
  let s1 := sys_step_v sha1 p cwd s (OWrite, vs) in let parts := split_piece files 0 (rd_idx r * i_piece_length i) (rd_piece r) in
  collision sha1 (i_piece_length i) T s \/
  ((sy_writer_dead s1 = true <-> exists k, (k < List.length parts)%nat /\ refused (vs k)) /\
   (sy_writer_dead s1 = false -> forall k path pos data j, nth_error parts k = Some (path, pos, data) -> (j < List.length data)%nat -> takes (vs k) j ->
      nth_error (text_at (sy_disk s1) (cwd ++ path)) (N.to_nat pos + j) = nth_error data j)).
Proof. exact c87_errors. Qed.
Print Assumptions C87_errors.

(** C87: a second run on a disk that takes everything completes the files, wherever and however the first one failed. *)
Theorem C87_restart : forall sha1 p p' cwd ih ih' d s s' i files T, reached_v sha1 p cwd ih d s ->
  ta_info (sy_actor s) = Some i -> describes sha1 i files T -> disk_ready cwd files d ->
  reached sha1 p' cwd ih' (sy_disk s) s' -> ta_info (sy_actor s') = Some i ->
  (forall idx, (idx < piece_count (lenN T) (i_piece_length i))%N -> In idx (written s')) ->
  collision sha1 (i_piece_length i) T s \/ collision sha1 (i_piece_length i) T s' \/
  ((forall k f, nth_error files k = Some f -> (0 < f_length f)%N -> sy_disk s' (cwd ++ f_path f) = Some (NFile (file_content T files k f))) /\
   (forall l, unrelated cwd files l -> sy_disk s' l = d l)).
Proof. exact c87_restart. Qed.
Print Assumptions C87_restart.

(** ** Examples: the torrent of PropSystem, two pieces of one file *)

(** The execution of PropSystem; its two writes meet the verdicts [v] and [w]. *)
Definition xf_ops (v w : verdict) : list (op * (nat -> verdict)) :=
  map (fun o => (o, fun _ => v)) ex_all ++ [(OWrite, fun _ => w)].
Definition xf_run (v w : verdict) : sys := sys_run_v ex_sha1 Debug [s2b "home"] (sys_init ex_hash ex_empty) (xf_ops v w).
Definition xf_file (s : sys) : option node := sy_disk s [s2b "home"; s2b "x"].
Lemma xf_ok : forall v w, Forall (fun o => op_ok (fst o)) (xf_ops v w).
Proof.
  intros v w. apply Forall_forall. intros o H. destruct (fst o) eqn:E; try exact I.
  assert (X : shuffle = ex_same).
  { unfold xf_ops in H. apply in_app_or in H as [H|[<-|[]]]; [|discriminate]. apply in_map_iff in H as (x & <- & H). cbn [fst] in E. subst x.
    cbn in H. repeat (destruct H as [H|H]; [try discriminate; injection H; auto|]). contradiction. }
  rewrite X. intros k0 l. apply Permutation_refl.
Qed.

Example C87_example :
  map (fun q => let s := xf_run (fst q) (snd q) in (xf_file s, sy_writer_dead s, completed s))
    [(VAll, VAll); (VShort 1, VAll); (VNoSpace, VAll); (VNoFile, VAll); (VAll, VShort 1); (VAll, VNoSpace); (VShort 0, VAll)]
  = [(Some (NFile [1; 2; 3; 4; 5]), false, [1; 0]); (Some (NFile [1; 2; 3; 4]), false, [1; 0]); (Some (NFile []), true, [1; 0]);
     (None, true, [1; 0]); (Some (NFile [1; 0; 0; 4; 5]), false, [1; 0]); (Some (NFile [0; 0; 0; 4; 5]), true, [1; 0]);
     (Some (NFile [1; 2; 3]), false, [1; 0])]%N.
Proof. vm_compute. reflexivity. Qed.

(** C87: it is not so that a torrent which has received and written everything, on a disk that takes everything again, has its files: one write
    that was cut short spoils it, and nobody says so. *)
Theorem C87_recovers_refuted : exists s files T, reached_v ex_sha1 Debug [s2b "home"] ex_hash ex_empty s /\
  ta_info (sy_actor s) = Some ex_meta /\ describes ex_sha1 ex_meta files T /\ disk_ready [s2b "home"] files ex_empty /\
  sy_workers s = 5%nat /\ waiting s = [] /\ in_flight s = [] /\ sy_writer s = [] /\ sy_writer_dead s = false /\
  (forall idx, (idx < piece_count (lenN T) (i_piece_length ex_meta))%N -> In idx (completed s)) /\
  exists f, nth_error files 0 = Some f /\ sy_disk s ([s2b "home"] ++ f_path f) <> Some (NFile (file_content T files 0 f)).
Proof.
  exists (xf_run (VShort 1) VAll), [{| f_path := [s2b "x"]; f_length := 5%N |}], ex_data. destruct C42_described as [D R].
  split; [exists (xf_ops (VShort 1) VAll); split; [apply xf_ok|reflexivity]|]. split; [vm_compute; reflexivity|]. split; [exact D|]. split; [exact R|].
  do 5 (split; [vm_compute; reflexivity|]). split.
  - intros idx L. replace (completed (xf_run (VShort 1) VAll)) with [1; 0]%N by (vm_compute; reflexivity).
    change (piece_count (lenN ex_data) (i_piece_length ex_meta)) with 2%N in L. assert (idx = 0 \/ idx = 1)%N as [->| ->] by lia; cbn; auto.
  - eexists. split; [reflexivity|]. vm_compute. discriminate.
Qed.
Print Assumptions C87_recovers_refuted.
