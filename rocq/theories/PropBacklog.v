(** PropBacklog: property C81 (how much of a torrent can wait in memory) *)
From Coq Require Import Permutation.
From Verif Require Import Base ModelTorrent ModelStream ModelPeer ModelWriter ModelActors ModelMain ModelSha1 SpecMessages SpecStream SpecTorrent SpecWriter
  SpecPieces SpecSystem SpecMain SpecResume SpecBacklog PropPeer PropSystem PropMain ProofBacklog.

(** C81: the pieces that were downloaded and are not written yet are never more than the torrent,
    however fast the peers and however slow the disk. *)
Theorem C81_at_most_the_torrent : forall sha1 p cwd ih d s i files T, reached sha1 p cwd ih d s ->
  ta_info (sy_actor s) = Some i -> describes sha1 i files T ->
  forged sha1 (i_piece_length i) T s \/ (backlog s <= lenN T)%N.
Proof. exact c81. Qed.
Print Assumptions C81_at_most_the_torrent.

(** C81: so for the whole program: whatever torrents were asked for, what waits in memory is never more
    than all of them together. *)
Theorem C81_all_torrents : forall sha1 p cwd d ops s F T, started sha1 p cwd d ops s -> told sha1 F T s ->
  some_forged sha1 T s \/ (all_backlog s <= all_content T s)%N.
Proof. exact c81_process. Qed.
Print Assumptions C81_all_torrents.

(** C81: and no less will do: nothing makes the downloads wait for the writer. From any moment at which
    nothing has been written, the whole torrent can come to wait in memory, with the disk as it was. *)
Theorem C81_all_of_it : forall sha1 p cwd ih d s i files T, reached sha1 p cwd ih d s -> requested (sy_trace s) <> [] ->
  ta_info (sy_actor s) = Some i -> describes sha1 i files T -> sy_workers s = 5%nat ->
  (forall b, List.length (sha1 b) = 20%nat) -> (lenN T + i_piece_length i <= 2 ^ 64)%N -> (i_piece_length i < 2 ^ 32)%N ->
  (piece_count (lenN T) (i_piece_length i) <= 2 ^ 32)%N ->
  (forall ep, In ep (reported s) -> ModelTracker.parse_socket_addr ep <> None) ->
  written s = [] ->
  exists ops, Forall op_ok ops /\ Forall (fun o => o <> OWrite) ops /\ let s' := sys_run sha1 p cwd s ops in
    in_flight s' = [] /\ waiting s' = [] /\ sy_disk s' = sy_disk s /\
    (forged sha1 (i_piece_length i) T s' \/ backlog s' = lenN T).
Proof. exact c81_all. Qed.
Print Assumptions C81_all_of_it.

(** Two pieces, of which none, one, both, and after a write one wait; the hypotheses of the theorems hold. *)
Example C81_example :
  map (fun k => backlog (ex_run (firstn k (ex_all ++ [OWrite])))) [22; 26; 29; 30; 31; 32; 33]%nat = [0; 2; 5; 5; 3; 3; 0]%N /\
  (let s := ex_run (ex_begin 11) in requested (sy_trace s) <> [] /\ ta_info (sy_actor s) = Some ex_meta /\ sy_workers s = 5%nat /\
     written s = [] /\ Forall (fun ep => match ModelTracker.parse_socket_addr ep with Some _ => True | None => False end) (reported s)) /\
  (forall b, List.length (ex_sha1 b) = 20%nat).
Proof.
  split; [vm_compute; reflexivity|]. split; [cbv zeta; split; [vm_compute; discriminate|]; vm_compute; repeat split; repeat constructor|].
  intros b. unfold ex_sha1. rewrite firstn_length, app_length, repeat_length. apply Nat.min_l. apply Nat.le_add_l.
Qed.

(** Two torrents of five bytes whose writers do nothing: both wait in memory as a whole. *)
Example C81_example_two :
  let ops := filter (fun o => match o with PWrite _ => false | _ => true end) (xm_two (s2b "x") (s2b "y")) in
  let T t := if (t =? 0)%nat then xm_a else xm_b in
  started sha1 Debug xm_cwd xm_empty ops (xm_run ops) /\
  map (fun x => (ta_info (sy_actor x), backlog x)) (pr_torrents (xm_run ops)) = [(Some (xm_info (s2b "x") xm_a), 5%N); (Some (xm_info (s2b "y") xm_b), 5%N)] /\
  describes sha1 (xm_info (s2b "x") xm_a) (xm_files (s2b "x")) xm_a /\ describes sha1 (xm_info (s2b "y") xm_b) (xm_files (s2b "y")) xm_b /\
  all_backlog (xm_run ops) = 10%N /\ all_content T (xm_run ops) = 10%N.
Proof.
  cbv zeta. split; [split; [ops_ok|reflexivity]|]. split; [vm_compute; reflexivity|].
  split; [apply xm_describes; [exact xm_sane_x|reflexivity]|]. split; [apply xm_describes; [exact xm_sane_y|reflexivity]|].
  split; vm_compute; reflexivity.
Qed.
