(** PropGap: properties C26 and C42 for files that are not finished *)
From Verif Require Import Base ModelTorrent ModelWriter ModelActors SpecTorrent SpecWriter SpecSystem SpecGap PropWriter PropSystem ProofGap.

(** C26: whatever was written of a torrent, in whatever order, and wherever it was cut off: each byte of each of its files is the right
    one, or the one that was there before, or a zero where nothing was. *)
Theorem C26_nothing_else : forall p cwd files plen T d1 d2, total_length files = lenN T -> (lenN T < 2 ^ 64)%N -> (0 < plen)%N -> good_files files ->
  interrupted p cwd files plen T d1 d2 -> accounted cwd files T d1 d2.
Proof. exact gap_c26. Qed.
Print Assumptions C26_nothing_else.
(** C42: and so it is at every moment of every execution, unless a peer has sent wrong data with the right hash. *)
Theorem C42_nothing_else : forall sha1 p cwd ih d s i files T, reached sha1 p cwd ih d s ->
  ta_info (sy_actor s) = Some i -> describes sha1 i files T -> disk_ready cwd files d ->
  collision sha1 (i_piece_length i) T s \/ accounted cwd files T d (sy_disk s).
Proof. exact gap_system. Qed.
Print Assumptions C42_nothing_else.
(** A file of five bytes of which the second piece is there; other bytes than zeros would not do. *)
Example C42_gap_example :
  let s := ex_run ex_all in let d := sy_disk s in let files := [{| f_path := [s2b "x"]; f_length := 5%N |}] in
  text_at d [s2b "home"; s2b "x"] = [0; 0; 0; 4; 5]%N /\ text_at ex_empty [s2b "home"; s2b "x"] = [] /\
  nth_error (file_content ex_data files 0 {| f_path := [s2b "x"]; f_length := 5%N |}) 4 = Some 5%N /\
  ~ accounted [s2b "home"] files ex_data ex_empty (fs_set d [s2b "home"; s2b "x"] (NFile [7; 0; 0; 4; 5]%N)).
Proof.
  split; [vm_compute; reflexivity|]. split; [reflexivity|]. split; [reflexivity|]. intros A.
  destruct (A 0%nat {| f_path := [s2b "x"]; f_length := 5%N |} 0%nat 7%N eq_refl eq_refl) as [C|[C|[C _]]]; discriminate.
Qed.
