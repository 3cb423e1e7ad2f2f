(** PropWhole: properties C62 (any torrent can be downloaded from its link) and C63 (at rest, again) *)
From Coq Require Import Permutation.
From Verif Require Import Base Utf8 ModelBencode ModelMessages ModelTorrent ModelWriter ModelTracker ModelStream ModelPeer
  ModelActors ModelCache ModelMain ModelSha1 SpecBencode SpecMessages SpecTorrent SpecStream SpecWriter SpecPieces SpecSystem
  SpecSession SpecCache SpecLookup SpecMain ProofSha1 PropLookup PropMain SpecWhole ProofWhole.

(** C62: whatever the program has done so far, if one tracker worker is alive, then the link of any
    properly made torrent (any number of files and pieces, any sizes in range) can be downloaded to the
    last byte: there is a continuation after which all non-empty files are on the disk, the description
    is saved under the hash of the link, and neither the other torrents nor anything else on the disk
    has changed. *)
Theorem C62_every_torrent : forall sha1 p cwd d ops s k x raw i files T, started sha1 p cwd d ops s ->
  nth_error (pr_trackers s) k = Some x -> tk_alive x = true ->
  (forall b, List.length (sha1 b) = 20%nat) -> publishable sha1 i files T ->
  let h := sha1 (benc (info_value i)) in
  hex_link raw h -> disk_ready cwd files (pr_disk s) -> description_ok cwd h i (pr_disk s) ->
  exists ops', Forall pop_ok ops' /\ let s' := pr_run sha1 p cwd s (PAdd raw false :: ops') in
    (forall j f, nth_error files j = Some f -> (0 < f_length f)%N ->
       pr_disk s' (cwd ++ f_path f) = Some (NFile (file_content T files j f))) /\
    pr_disk s' (in_downloads cwd (encode_binary h)) = Some (NFile (js_info i)) /\
    (forall l, unrelated cwd files l -> ~ in_saved cwd l -> pr_disk s' l = pr_disk s l) /\
    List.length (pr_torrents s') = S (List.length (pr_torrents s)) /\
    (forall u, (u < List.length (pr_torrents s))%nat -> nth_error (pr_torrents s') u = nth_error (pr_torrents s) u).
Proof. exact c62. Qed.
Print Assumptions C62_every_torrent.

(** A torrent of two files, the second in a directory; seven bytes, pieces of three. *)
Definition xw_data : bytes := [1; 2; 3; 4; 5; 6; 7]%N.
Definition xw_files : list file := [{| f_path := [s2b "a"]; f_length := 2%N |}; {| f_path := [s2b "b"; s2b "c"]; f_length := 5%N |}].
Definition xw_info : info :=
  {| i_length := None; i_files := Some xw_files; i_name := s2b "album"; i_piece_length := 3%N;
     i_pieces := sha1 (torrent_piece xw_data 3 0) ++ sha1 (torrent_piece xw_data 3 1) ++ sha1 (torrent_piece xw_data 3 2) |}.
Example C62_publishable : publishable sha1 xw_info xw_files xw_data.
Proof.
  constructor.
  - split; [|split; [|split; [|split; [|split]]]].
    + intros fs E. injection E as <-. repeat constructor; discriminate.
    + intros n E. discriminate E.
    + repeat constructor; discriminate.
    + reflexivity.
    + vm_compute. discriminate.
    + vm_compute. reflexivity.
  - vm_compute. repeat constructor.
  - split; [apply co_several; reflexivity|]. split; [reflexivity|]. split; [reflexivity|]. split; [reflexivity|]. split.
    + split.
      * repeat constructor; try discriminate; intros H; cbn in H; repeat (destruct H as [H|H]; [discriminate|]); exact H.
      * intros i j f g HI HJ NE (c & X).
        destruct i as [|[|i]]; [| |destruct i; discriminate]; (destruct j as [|[|j]]; [| |destruct j; discriminate]); try congruence;
          injection HI as <-; injection HJ as <-; discriminate.
    + intros idx L. assert (C : idx = 0%N \/ idx = 1%N \/ idx = 2%N) by (change (idx < 3)%N in L; lia).
      destruct C as [->|[->| ->]]; vm_compute; reflexivity.
  - vm_compute. discriminate.
  - reflexivity.
  - vm_compute. discriminate.
  - vm_compute. reflexivity.
  - intros f [<-|[<-|[]]]; discriminate.
Qed.

(** While another torrent has been downloaded, this one is added and can be completed. *)
Definition xw_hash : bytes := sha1 (benc (info_value xw_info)).
Definition xw_before : list pop := xm_add (xm_hash (s2b "x") xm_a) ++ xm_download 0 (s2b "x") xm_a.
Example C62_example : exists ops', Forall pop_ok ops' /\
  let s' := pr_run sha1 Debug xm_cwd (xm_run xw_before) (PAdd (xm_link xw_hash) false :: ops') in
  pr_disk s' [s2b "home"; s2b "a"] = Some (NFile [1; 2]%N) /\ pr_disk s' [s2b "home"; s2b "b"; s2b "c"] = Some (NFile [3; 4; 5; 6; 7]%N) /\
  pr_disk s' [s2b "home"; s2b "x"] = Some (NFile xm_a).
Proof.
  assert (AL : option_map tk_alive (nth_error (pr_trackers (xm_run xw_before)) 3) = Some true) by (vm_compute; reflexivity).
  destruct (nth_error (pr_trackers (xm_run xw_before)) 3) as [x|] eqn:E; [|discriminate]. injection AL as AL.
  assert (ST : started sha1 Debug xm_cwd xm_empty xw_before (xm_run xw_before)) by (split; [ops_ok|reflexivity]).
  assert (HL : hex_link (xm_link xw_hash) xw_hash).
  { exists (xm_hex xw_hash), (s2b "dn=x"). repeat split; vm_compute; congruence. }
  assert (DX : pr_disk (xm_run xw_before) [s2b "home"; s2b "x"] = Some (NFile xm_a)) by (vm_compute; reflexivity).
  assert (DR : disk_ready xm_cwd xw_files (pr_disk (xm_run xw_before))).
  { intros f [<-|[<-|[]]]; (split; [|left; vm_compute; reflexivity]); intros q r X NQ NR; left.
    - destruct q as [|q1 [|q2 q]]; [congruence| |discriminate]. cbn in X. injection X as X1 X2. congruence.
    - destruct q as [|q1 [|q2 q]]; [congruence| |].
      + injection X as <- _. vm_compute. reflexivity.
      + destruct q; [|discriminate]. injection X as _ _ X. congruence. }
  assert (DO : description_ok xm_cwd xw_hash xw_info (pr_disk (xm_run xw_before))).
  { split; [right|left]; vm_compute; reflexivity. }
  destruct (C62_every_torrent sha1 Debug xm_cwd xm_empty xw_before (xm_run xw_before) 3 x (xm_link xw_hash) xw_info xw_files xw_data
    ST E AL digest_length C62_publishable HL DR DO) as (ops' & OK & A & _ & U & _).
  exists ops'. split; [exact OK|]. cbn zeta in *. revert A U.
  generalize (pr_disk (pr_run sha1 Debug xm_cwd (xm_run xw_before) (PAdd (xm_link xw_hash) false :: ops'))) as d'. intros d' A U.
  split; [|split].
  - exact (A 0%nat _ eq_refl eq_refl).
  - exact (A 1%nat _ eq_refl eq_refl).
  - rewrite U; [exact DX| |].
    + intros f q r [<-|[<-|[]]] X NQ Y.
      * destruct q as [|q1 q]; [congruence|]. injection X as <- _. discriminate Y.
      * destruct q as [|q1 q]; [congruence|]. injection X as <- _. discriminate Y.
    + intros (r & X). discriminate X.
Qed.

(** C63: several torrents together: unless a peer has sent wrong data with the right hash, every torrent
    that has asked for pieces, has lost no download worker and has come to rest is complete on the disk. *)
Theorem C63_at_rest : forall sha1 p cwd F T d ops s, started sha1 p cwd d ops s ->
  apart (List.length (pr_torrents s)) F T -> (forall t, (t < List.length (pr_torrents s))%nat -> disk_ready cwd (F t) d) ->
  told sha1 F T s ->
  some_collision sha1 T s \/
  forall t x i, nth_error (pr_torrents s) t = Some x -> ta_info (sy_actor x) = Some i ->
    requested (sy_trace x) <> [] -> sy_workers x = 5%nat -> at_rest x -> complete_on cwd (F t) (T t) (pr_disk s).
Proof. exact c63_rest. Qed.
Print Assumptions C63_at_rest.

(** C63: what one run of the program has completed, no later run damages, whether it downloads the
    same torrent again or others that have nothing to do with it. *)
Theorem C63_finished_stays : forall sha1 p cwd F T d ops s files C, started sha1 p cwd d ops s ->
  apart (List.length (pr_torrents s)) F T -> (forall t, (t < List.length (pr_torrents s))%nat -> disk_ready cwd (F t) d) ->
  told sha1 F T s ->
  good_files files -> outside_downloads files -> total_length files = lenN C ->
  (forall t, (t < List.length (pr_torrents s))%nat -> (F t = files /\ T t = C) \/ disjoint (F t) files) ->
  complete_on cwd files C d -> some_collision sha1 T s \/ complete_on cwd files C (pr_disk s).
Proof. exact c63_stays. Qed.
Print Assumptions C63_finished_stays.

(** Two torrents that have come to rest; the hypotheses of C63_at_rest hold of them (C58_example). *)
Example C63_example : let s := xm_run (xm_two (s2b "x") (s2b "y")) in
  Forall (fun x => at_rest x /\ sy_workers x = 5%nat /\ requested (sy_trace x) <> [] /\ ta_info (sy_actor x) <> None) (pr_torrents s) /\
  complete_on xm_cwd (xm_files (s2b "x")) xm_a (pr_disk s) /\ complete_on xm_cwd (xm_files (s2b "y")) xm_b (pr_disk s).
Proof.
  cbn zeta. split; [|split].
  - assert (E : map (fun x => (sy_mail x, sy_queue x, sy_working x, sy_writer x, sy_workers x, match requested (sy_trace x) with [] => false | _ => true end,
        match ta_info (sy_actor x) with None => false | _ => true end)) (pr_torrents (xm_run (xm_two (s2b "x") (s2b "y"))))
      = [([], [], [], [], 5%nat, true, true); ([], [], [], [], 5%nat, true, true)]) by (vm_compute; reflexivity).
    revert E. generalize (pr_torrents (xm_run (xm_two (s2b "x") (s2b "y")))) as l. intros [|a [|b [|c l]]] E; try discriminate.
    cbn [map] in E. injection E as A1 A2 A3 A4 A5 A6 A7 B1 B2 B3 B4 B5 B6 B7.
    constructor; [|constructor; [|constructor]]; unfold at_rest; repeat split; try assumption.
    + destruct (requested (sy_trace a)); discriminate.
    + destruct (ta_info (sy_actor a)); discriminate.
    + destruct (requested (sy_trace b)); discriminate.
    + destruct (ta_info (sy_actor b)); discriminate.
  - intros k f H L. destruct k as [|[|k]]; try discriminate. injection H as <-. vm_compute. reflexivity.
  - intros k f H L. destruct k as [|[|k]]; try discriminate. injection H as <-. vm_compute. reflexivity.
Qed.

(** The program is started again on that disk, with one of the two torrents and a third one of which
    nothing arrives: both finished files are as they were. *)
Example C63_stays_example :
  let s := xm_run (xm_two (s2b "x") (s2b "y")) in
  let s' := pr_run sha1 Debug xm_cwd (process_init (pr_disk s)) (xm_add (xm_hash (s2b "x") xm_a) ++ xm_add (xm_hash (s2b "z") xm_b)
              ++ xm_download 0 (s2b "x") xm_a) in
  map written (pr_torrents s') = [[0; 1]; []]%N /\
  pr_disk s' [s2b "home"; s2b "x"] = Some (NFile xm_a) /\ pr_disk s' [s2b "home"; s2b "y"] = Some (NFile xm_b).
Proof. vm_compute. auto. Qed.
