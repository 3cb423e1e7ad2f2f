(** PropResume: property C80 (what is on the disk already saves nothing) *)
From Coq Require Import Permutation.
From Verif Require Import Base Utf8 ModelBencode ModelMessages ModelTorrent ModelWriter ModelTracker ModelStream ModelPeer
  ModelActors ModelCache ModelMain ModelSha1 SpecMessages SpecTorrent SpecStream SpecWriter SpecPieces SpecSystem SpecSession
  SpecCache SpecLookup SpecMain SpecText SpecDisk SpecPlant SpecResume PropPeer PropLookup PropSystem PropMain PropDisk ProofResume.

(** C80: as long as no torrent has a file where the descriptions are kept, the program does not look at
    what else is on the disk: the same events lead to the same requests, the same peers asked, the same
    pieces handed to the writer and the same messages to the trackers, whatever files were there. *)
Theorem C80_disk_ignored : forall sha1 p cwd d d' ops s s', started sha1 p cwd d ops s -> started sha1 p cwd d' ops s' ->
  descriptions_alike cwd d d' -> leaves_downloads s -> same_outside cwd s s'.
Proof. exact c80. Qed.
Print Assumptions C80_disk_ignored.

(** One disk is empty, the other holds six bytes where the torrent's file of five bytes goes. *)
Example C80_ignored_example :
  let d' := xd_one [s2b "home"; s2b "x"] (NFile [9; 9; 9; 9; 9; 9]%N) in
  let s := xm_run (xd_ops (s2b "x")) in let s' := pr_run sha1 Debug xm_cwd (process_init d') (xd_ops (s2b "x")) in
  Forall pop_ok (xd_ops (s2b "x")) /\ descriptions_alike xm_cwd xm_empty d' /\ leaves_downloads s /\
  map (fun x => map rq_idx (requested (sy_trace x))) (pr_torrents s') = [[0; 1]]%N /\
  map handed_over (pr_torrents s') = [[(0%N, [1; 2; 3]%N); (1%N, [4; 5]%N)]] /\
  pr_disk s [s2b "home"; s2b "x"] = Some (NFile xm_a) /\ pr_disk s' [s2b "home"; s2b "x"] = Some (NFile (xm_a ++ [9]%N)).
Proof.
  cbv zeta. split; [ops_ok|]. split.
  - intros rest. unfold xd_one, xm_empty. destruct (loc_eqb [s2b "home"; s2b "x"] (xm_cwd ++ s2b "downloads" :: rest)) eqn:E; [|reflexivity].
    cbn in E. discriminate.
  - split.
    + intros path (x & i & files & f & I & E & C & If & ->).
      apply (in_map (fun x => ta_info (sy_actor x))) in I. rewrite E in I.
      assert (M : map (fun x => ta_info (sy_actor x)) (pr_torrents (xm_run (xd_ops (s2b "x")))) = [Some (xm_info (s2b "x") xm_a)]) by (vm_compute; reflexivity).
      rewrite M in I. destruct I as [I|[]]. injection I as <-.
      rewrite (xd_single (xm_info (s2b "x") xm_a) 5%N files f eq_refl eq_refl C If). split.
      * split; [discriminate|]. constructor; [|constructor]. vm_compute. intuition discriminate.
      * intros rest H. discriminate.
    + vm_compute. auto.
Qed.

(** C80: every piece that was handed to the writer, or is on its way there, was delivered by a peer in
    this run of the program, and everything delivered is there: nothing is taken from the disk. *)
Theorem C80_from_peers : forall sha1 p cwd ih d ops, Forall op_ok ops ->
  let s := sys_run sha1 p cwd (sys_init ih d) ops in
  Permutation (deliveries sha1 p cwd (sys_init ih d) ops) (handed_over s ++ on_its_way s).
Proof. exact c80_deliveries. Qed.
Print Assumptions C80_from_peers.

Example C80_peers_example :
  deliveries ex_sha1 Debug [s2b "home"] (sys_init ex_hash ex_empty) (ex_all ++ [OWrite])
    = [(1%N, [4; 5]%N); (0%N, [1; 2; 3]%N)] /\
  (let s := ex_run (firstn 30 ex_all) in (handed_over s, on_its_way s)) = ([(1%N, [4; 5]%N)], [(0%N, [1; 2; 3]%N)]).
Proof. vm_compute. auto. Qed.

(** C80, the wish that a finished download is recognised after a restart: on this disk the torrent is
    complete and its description is saved; the program asks for all pieces again. *)
Theorem C80_resume_refuted : exists d ops s x, started sha1 Debug xm_cwd d ops s /\ pr_torrents s = [x] /\
  ta_info (sy_actor x) = Some (xm_info (s2b "x") xm_a) /\
  d (xm_cwd ++ [s2b "x"]) = Some (NFile xm_a) /\
  d (in_downloads xm_cwd (encode_binary (ta_info_hash (sy_actor x)))) = Some (NFile (js_info (xm_info (s2b "x") xm_a))) /\
  map rq_idx (requested (sy_trace x)) = [0; 1]%N.
Proof.
  assert (M : map (fun x => (ta_info (sy_actor x), ta_info_hash (sy_actor x), map rq_idx (requested (sy_trace x))))
      (pr_torrents (pr_run sha1 Debug xm_cwd (process_init (pr_disk (xm_run (xd_ops (s2b "x")))))
        (xm_add (xm_hash (s2b "x") xm_a) ++ repeat (PHandle 0 0 0 0 None xm_pid xm_same) 11)))
    = [(Some (xm_info (s2b "x") xm_a), xm_hash (s2b "x") xm_a, [0; 1]%N)]) by (vm_compute; reflexivity).
  assert (D1 : pr_disk (xm_run (xd_ops (s2b "x"))) (xm_cwd ++ [s2b "x"]) = Some (NFile xm_a)) by (vm_compute; reflexivity).
  assert (D2 : pr_disk (xm_run (xd_ops (s2b "x"))) (in_downloads xm_cwd (encode_binary (xm_hash (s2b "x") xm_a)))
    = Some (NFile (js_info (xm_info (s2b "x") xm_a)))) by (vm_compute; reflexivity).
  exists (pr_disk (xm_run (xd_ops (s2b "x")))), (xm_add (xm_hash (s2b "x") xm_a) ++ repeat (PHandle 0 0 0 0 None xm_pid xm_same) 11),
    (pr_run sha1 Debug xm_cwd (process_init (pr_disk (xm_run (xd_ops (s2b "x"))))) (xm_add (xm_hash (s2b "x") xm_a) ++ repeat (PHandle 0 0 0 0 None xm_pid xm_same) 11)).
  revert M D1 D2. generalize (xm_info (s2b "x") xm_a) as i. generalize (pr_disk (xm_run (xd_ops (s2b "x")))) as d.
  generalize (xm_hash (s2b "x") xm_a) as h. intros h d i.
  set (ops := xm_add h ++ repeat (PHandle 0 0 0 0 None xm_pid xm_same) 11).
  assert (OK : Forall pop_ok ops) by (unfold ops, xm_add; ops_ok). clearbody ops.
  remember (pr_run sha1 Debug xm_cwd (process_init d) ops) as s eqn:E. intros M D1 D2.
  destruct (pr_torrents s) as [|x [|y l]]; try discriminate. exists x. injection M as M1 M2 M3.
  split; [split; [exact OK|exact E]|]. split; [reflexivity|]. split; [exact M1|]. split; [exact D1|].
  split; [rewrite M2; exact D2|exact M3].
Qed.
Print Assumptions C80_resume_refuted.
