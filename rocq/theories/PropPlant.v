(** PropPlant: property C76 (a torrent is what its link says) *)
From Verif Require Import Base Utf8 ModelBencode ModelMessages ModelTorrent ModelWriter ModelTracker ModelStream ModelPeer ModelActors
  ModelCache ModelMain ModelSha1 SpecMessages SpecTorrent SpecWriter SpecStream SpecPieces SpecSystem SpecSession SpecMain SpecCache SpecText SpecDisk
  SpecPlant PropMain PropDisk ProofPlant.

(** C76: if no peer lies about a description, the descriptions saved earlier are right and no torrent has files in
    the directory where descriptions are kept, then every torrent, whatever else happens, is the one that its link
    names, and what is saved stays right. *)
Theorem C76_as_linked : forall sha1 p cwd d ops s, started sha1 p cwd d ops s -> Forall of_octets ops ->
  all_tell_truth sha1 p cwd (process_init d) ops -> saved_right encode_binary sha1 cwd d -> leaves_downloads s ->
  as_linked sha1 s /\ saved_right encode_binary sha1 cwd (pr_disk s).
Proof. exact c76. Qed.
Print Assumptions C76_as_linked.

(** ** Examples: the hypotheses by computation. *)
Definition xp_octets (o : pop) : bool :=
  match o with
  | PAdd raw _ => forallb (fun x => (x <? 256)%N) raw
  | PHandle _ _ _ _ (Some s) _ _ => forallb (fun x => (x <? 256)%N) (incoming s)
  | _ => true
  end.
Lemma xp_of_octets : forall ops, forallb xp_octets ops = true -> Forall of_octets ops.
Proof.
  assert (B : forall b, forallb (fun x => (x <? 256)%N) b = true -> octets b).
  { intros b H. apply Forall_forall. intros x I. apply N.ltb_lt. exact (proj1 (forallb_forall _ _) H x I). }
  intros ops H. apply Forall_forall. intros o I. apply (proj1 (forallb_forall _ _) H) in I.
  destruct o as [raw full|full|k|k j e|k j connects|t k accept fuel [s|] pid shuffle|t|t j net pid fuel|t]; cbn [of_octets xp_octets] in *; auto.
  - intros s' Q. injection Q as <-. auto.
  - discriminate.
Qed.
Definition xp_check (s : process) (o : pop) : bool :=
  match o with
  | PHandle t _ _ fuel net pid _ =>
    match nth_error (pr_torrents s) t with
    | Some x => match get_info fuel net pid (ta_info_hash (sy_actor x)) (s2b "1.2.3.4:5") with
                | Ret (Ok i) => bytes_eqb (compute_info_hash sha1 i) (ta_info_hash (sy_actor x))
                | _ => true
                end
    | None => true
    end
  | _ => true
  end.
Fixpoint xp_truth (s : process) (ops : list pop) : bool :=
  match ops with
  | [] => true
  | o :: t => xp_check s o && xp_truth (pr_step sha1 Debug xm_cwd s o) t
  end.
Lemma xp_all : forall ops s, xp_truth s ops = true -> all_tell_truth sha1 Debug xm_cwd s ops.
Proof.
  induction ops as [|o ops IH]; intros s H; [exact I|]. cbn [xp_truth all_tell_truth] in *. apply andb_prop in H as [C H]. split; [|auto].
  destruct o; cbn [tells_truth xp_check] in *; auto. intros x ep i N G. rewrite N in C.
  assert (E : get_info fuel net pid (ta_info_hash (sy_actor x)) (s2b "1.2.3.4:5") = Ret (Ok i)).
  { rewrite <- G. unfold get_info, connect in *. destruct (parse_socket_addr ep) eqn:P; [|discriminate].
    destruct (parse_socket_addr (s2b "1.2.3.4:5")) eqn:Q; [reflexivity|vm_compute in Q; discriminate]. }
  rewrite E in C. now apply ProofBase.bytes_eqb_eq in C.
Qed.

Example C76_example : let ops := xm_two (s2b "x") (s2b "y") in let s := xm_run ops in
  started sha1 Debug xm_cwd xm_empty ops s /\ Forall of_octets ops /\
  all_tell_truth sha1 Debug xm_cwd (process_init xm_empty) ops /\ saved_right encode_binary sha1 xm_cwd xm_empty /\
  leaves_downloads s /\ map (fun x => ta_info (sy_actor x)) (pr_torrents s) = [Some (xm_info (s2b "x") xm_a); Some (xm_info (s2b "y") xm_b)].
Proof.
  cbn zeta. split; [split; [ops_ok|reflexivity]|]. split; [apply xp_of_octets; vm_compute; reflexivity|].
  split; [apply xp_all; vm_compute; reflexivity|].
  assert (D : map (fun x => ta_info (sy_actor x)) (pr_torrents (xm_run (xm_two (s2b "x") (s2b "y")))) =
    [Some (xm_info (s2b "x") xm_a); Some (xm_info (s2b "y") xm_b)]) by (vm_compute; reflexivity).
  split; [intros h c i _ Q; discriminate|]. split; [|exact D].
  intros path H. pose proof (xd_plain path H) as SP. split; [exact SP|]. intros rest E. subst path.
  destruct H as (x & i & files & f & I & EI & C & If & E).
  apply (in_map (fun x => ta_info (sy_actor x))) in I. rewrite D, EI in I.
  destruct I as [I|[I|[]]]; injection I as <-.
  - rewrite (xd_single (xm_info (s2b "x") xm_a) 5%N files f eq_refl eq_refl C If) in E. discriminate.
  - rewrite (xd_single (xm_info (s2b "y") xm_b) 5%N files f eq_refl eq_refl C If) in E. discriminate.
Qed.

(** A torrent whose only file lies in the directory of the descriptions, under the name of another torrent's hash; its
    content describes yet another torrent. *)
Definition xp_victim : bytes := xm_hash (s2b "x") xm_a.
Definition xp_content : bytes := js_info (xm_info (s2b "z") xm_b).
Definition xp_info : info :=
  {| i_length := None; i_files := Some [{| f_path := [s2b "downloads"; encode_binary xp_victim]; f_length := lenN xp_content |}];
     i_name := s2b "a"; i_piece_length := 16384%N; i_pieces := sha1 xp_content |}.
Definition xp_hash : bytes := compute_info_hash sha1 xp_info.
(** It is downloaded; then the link of the other torrent is followed, and no peer is asked anything. *)
Definition xp_ops : list pop :=
  xm_add xp_hash ++
  PHandle 0 0 1000 5 (Some (info_seed xp_hash xm_pid (lenN (enc_info xp_info)) 3 [enc_info xp_info])) xm_pid xm_same ::
  repeat (PHandle 0 0 0 0 None xm_pid xm_same) 10 ++
  [PStart 0; PFinish 0 0 (Some (seed xp_hash xm_pid 0 [xp_content])) xm_pid 9; PHandle 0 0 0 0 None xm_pid xm_same; PWrite 0] ++
  xm_add xp_victim ++ [PHandle 1 0 0 0 None xm_pid xm_same].

Lemma xp_multi : forall i l files f, i_files i = Some l -> consists_of i files -> In f files -> In f l.
Proof. intros i l files f F C I. inversion C; [|congruence]. assert (l = files) as -> by congruence. exact I. Qed.
Lemma xp_sane_z : sane_path [s2b "z"].
Proof. split; [discriminate|]. constructor; [|constructor]. repeat split; try discriminate; intros [Q|[]]; discriminate. Qed.
Lemma xp_sane : sane_path [s2b "downloads"; encode_binary xp_victim].
Proof.
  let v := eval vm_compute in (encode_binary xp_victim) in assert (E : encode_binary xp_victim = v) by (vm_compute; reflexivity).
  rewrite E. clear E. split; [discriminate|].
  repeat (constructor; [repeat split; try discriminate; intros Q; repeat (destruct Q as [Q|Q]; [discriminate|]); destruct Q|]). constructor.
Qed.

(** C76: without the last condition the claim is false. All peers tell the truth, nothing was saved before, all paths
    are plain, and still the download of one torrent makes the client take another link for a third torrent. *)
Theorem C76_planted_refuted : exists ops s x i,
  started sha1 Debug xm_cwd xm_empty ops s /\ Forall of_octets ops /\
  all_tell_truth sha1 Debug xm_cwd (process_init xm_empty) ops /\ plain_paths s /\
  In x (pr_torrents s) /\ ta_info (sy_actor x) = Some i /\ compute_info_hash sha1 i <> ta_info_hash (sy_actor x).
Proof.
  assert (D : map (fun x => ta_info (sy_actor x)) (pr_torrents (xm_run xp_ops)) = [Some xp_info; Some (xm_info (s2b "z") xm_b)]) by (vm_compute; reflexivity).
  assert (H : map (fun x => ta_info_hash (sy_actor x)) (pr_torrents (xm_run xp_ops)) = [xp_hash; xp_victim]) by (vm_compute; reflexivity).
  assert (R : started sha1 Debug xm_cwd xm_empty xp_ops (xm_run xp_ops)) by (split; [ops_ok|reflexivity]).
  assert (T : all_tell_truth sha1 Debug xm_cwd (process_init xm_empty) xp_ops) by (apply xp_all; vm_compute; reflexivity).
  assert (O : Forall of_octets xp_ops) by (apply xp_of_octets; vm_compute; reflexivity).
  assert (NE : compute_info_hash sha1 (xm_info (s2b "z") xm_b) <> xp_victim) by (vm_compute; discriminate).
  assert (PL : plain_paths (xm_run xp_ops)).
  { intros path (x & i & files & f & I & EI & C & If & ->).
    apply (in_map (fun x => ta_info (sy_actor x))) in I. rewrite D, EI in I. destruct I as [I|[I|[]]]; injection I as <-.
    - pose proof (xp_multi xp_info _ files f eq_refl C If) as Q. cbn [In] in Q. destruct Q as [Q|[]]. rewrite <- Q. exact xp_sane.
    - rewrite (xd_single (xm_info (s2b "z") xm_b) 5%N files f eq_refl eq_refl C If).
      exact xp_sane_z. }
  generalize dependent (xm_run xp_ops). intros s D H R PL.
  destruct (pr_torrents s) as [|x0 [|x [|? ?]]] eqn:E; try discriminate.
  pose proof (f_equal (fun l => nth 1 l None) D) as D1. pose proof (f_equal (fun l => nth 1 l []) H) as H1. cbn [map nth] in D1, H1.
  exists xp_ops, s, x, (xm_info (s2b "z") xm_b). split; [exact R|]. split; [exact O|]. split; [exact T|]. split; [exact PL|].
  split; [rewrite E; right; left; reflexivity|]. split; [exact D1|]. rewrite H1. exact NE.
Qed.
Print Assumptions C76_planted_refuted.
