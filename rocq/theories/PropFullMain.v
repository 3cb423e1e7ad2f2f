(** PropFullMain: property C89 (errors of the disk and several torrents) *)
From Coq Require Import Lia Permutation.
From Verif Require Import Base ModelTorrent ModelWriter ModelPeer ModelActors ModelMain ModelFull ModelFullMain ModelSha1 SpecTorrent SpecWriter SpecSystem SpecMain
  SpecGap SpecFull SpecFullMain PropMain ProofFullMain.

(** C89: with a disk that takes everything this is the program of the other properties. *)
Theorem C89_all_taken : forall sha1 p cwd ops s, Forall (fun o => forall k, snd o k = VAll) ops ->
  pr_run_v sha1 p cwd s ops = pr_run sha1 p cwd s (map fst ops).
Proof. exact c89_all. Qed.
Print Assumptions C89_all_taken.

(** C89: whatever the disk refuses, each torrent downloads as some execution of it alone on a disk that takes everything. *)
Theorem C89_as_alone : forall sha1 p cwd d ops s, started_v sha1 p cwd d ops s ->
  forall t x, nth_error (pr_torrents s) t = Some x ->
  exists h s0, nth_error (accepted p (map fst ops)) t = Some h /\ reached sha1 p cwd h d s0 /\ agree s0 x.
Proof. exact c89_alone. Qed.
Print Assumptions C89_as_alone.

(** C89: and the search for peers goes on as if the disk took everything: requests and trackers are the same. *)
Theorem C89_search : forall sha1 p cwd d ops,
  let s := pr_run_v sha1 p cwd (process_init d) ops in let s0 := pr_run sha1 p cwd (process_init d) (map fst ops) in
  pr_trackers s = pr_trackers s0 /\ pr_interface s = pr_interface s0 /\ List.length (pr_torrents s) = List.length (pr_torrents s0).
Proof. exact c89_search. Qed.
Print Assumptions C89_search.

(** C89: torrents that have nothing to do with each other (or are the same): unless a peer has sent wrong data with the right hash, whatever the
    disk refuses, of any of them, what was right stays right, each byte of each file is accounted for, nothing else changes; and a torrent all
    of whose own writes were taken has its pieces in place, whatever happened to the others. *)
Theorem C89_common_disk : forall sha1 p cwd F T d ops s, started_v sha1 p cwd d ops s ->
  apart (List.length (pr_torrents s)) F T -> (forall t, (t < List.length (pr_torrents s))%nat -> disk_ready cwd (F t) d) ->
  told sha1 F T s ->
  some_collision sha1 T s \/
  ((forall t x, nth_error (pr_torrents s) t = Some x ->
     disk_ready cwd (F t) (pr_disk s) /\ accounted cwd (F t) (T t) d (pr_disk s) /\
     (forall g, holds cwd (F t) (T t) d g -> holds cwd (F t) (T t) (pr_disk s) g) /\
     (spared t ops -> sy_writer_dead x = false /\
       forall i, ta_info (sy_actor x) = Some i ->
       (forall g, In (g / i_piece_length i)%N (written x) -> holds cwd (F t) (T t) (pr_disk s) g) /\
       ((forall idx, (idx < piece_count (lenN (T t)) (i_piece_length i))%N -> In idx (written x)) ->
         forall k f, nth_error (F t) k = Some f -> (0 < f_length f)%N ->
           pr_disk s (cwd ++ f_path f) = Some (NFile (file_content (T t) (F t) k f))))) /\
   (forall l, (forall t, (t < List.length (pr_torrents s))%nat -> unrelated cwd (F t) l) -> ~ in_saved cwd l -> pr_disk s l = d l)).
Proof. exact c89_disk. Qed.
Print Assumptions C89_common_disk.

(** C89: with such torrents, unless a peer has sent wrong data with the right hash, the whole download goes on as if the disk took everything: every
    torrent has the same description, pieces, peers, requests and messages, and the saved descriptions are the same; only files and writers differ. *)
Theorem C89_unnoticed : forall sha1 p cwd F T d ops s, started_v sha1 p cwd d ops s ->
  apart (List.length (pr_torrents s)) F T -> (forall t, (t < List.length (pr_torrents s))%nat -> disk_ready cwd (F t) d) -> told sha1 F T s ->
  let s0 := pr_run sha1 p cwd (process_init d) (map fst ops) in
  some_collision sha1 T s \/
  (Forall2 agree (pr_torrents s) (pr_torrents s0) /\ forall l, in_saved cwd l -> pr_disk s l = pr_disk s0 l).
Proof. exact c89_unnoticed. Qed.
Print Assumptions C89_unnoticed.

(** Two torrents of five bytes, as in C58; there is no room for the first. *)
Definition xs_ops (v : verdict) : list (pop * (nat -> verdict)) :=
  map (fun o => (o, fun _ => match o with PWrite 0 => v | _ => VAll end)) (xm_two (s2b "x") (s2b "y")).
Definition xs_run (v : verdict) : process := pr_run_v sha1 Debug xm_cwd (process_init xm_empty) (xs_ops v).
Lemma xs_started : forall v, started_v sha1 Debug xm_cwd xm_empty (xs_ops v) (xs_run v).
Proof.
  intros v. split; [|unfold xs_run; apply eq_refl]. unfold xs_ops. apply Forall_map. cbn [fst].
  assert (H : Forall pop_ok (xm_two (s2b "x") (s2b "y"))) by ops_ok. exact H.
Qed.

Example C89_example :
  let s := xs_run VNoSpace in
  let F t := if (t =? 0)%nat then xm_files (s2b "x") else xm_files (s2b "y") in
  let T t := if (t =? 0)%nat then xm_a else xm_b in
  started_v sha1 Debug xm_cwd xm_empty (xs_ops VNoSpace) s /\ apart (List.length (pr_torrents s)) F T /\ told sha1 F T s /\
  (forall t, disk_ready xm_cwd (F t) xm_empty) /\ spared 1 (xs_ops VNoSpace) /\ ~ spared 0 (xs_ops VNoSpace) /\
  map (fun x => (sy_writer_dead x, completed x)) (pr_torrents s) = [(true, [0; 1]); (false, [0; 1])]%N /\
  pr_disk s [s2b "home"; s2b "x"] = Some (NFile []) /\ pr_disk s [s2b "home"; s2b "y"] = Some (NFile xm_b).
Proof.
  intros s F T.
  assert (E : option_map (fun x => (ta_info (sy_actor x), (sy_writer_dead x, completed x))) (nth_error (pr_torrents s) 0)
                = Some (Some (xm_info (s2b "x") xm_a), (true, [0; 1]%N)) /\
              option_map (fun x => (ta_info (sy_actor x), (sy_writer_dead x, completed x))) (nth_error (pr_torrents s) 1)
                = Some (Some (xm_info (s2b "y") xm_b), (false, [0; 1]%N)) /\
              List.length (pr_torrents s) = 2%nat) by (split; [|split]; vm_compute; reflexivity).
  destruct E as (E0 & E1 & EL). rewrite EL.
  split; [exact (xs_started VNoSpace)|].
  split; [|split; [|split; [|split; [|split; [|split; [|split]]]]]].
  - split.
    + intros t _. unfold F. destruct (t =? 0)%nat; split.
      * apply (xm_describes (s2b "x") xm_a); [exact xm_sane_x|reflexivity].
      * intros f [<-|[]]. discriminate.
      * apply (xm_describes (s2b "y") xm_b); [exact xm_sane_y|reflexivity].
      * intros f [<-|[]]. discriminate.
    + intros t u _ _. unfold F, T. destruct (t =? 0)%nat, (u =? 0)%nat; auto; right; intros f g [<-|[]] [<-|[]]; split; intros (c & H); discriminate.
  - intros t x i H I. unfold F, T. destruct t as [|[|t]]; cbn [Nat.eqb].
    + rewrite H in E0. cbn in E0. injection E0 as E0 _. rewrite E0 in I. injection I as <-. apply xm_describes; [exact xm_sane_x|reflexivity].
    + rewrite H in E1. cbn in E1. injection E1 as E1 _. rewrite E1 in I. injection I as <-. apply xm_describes; [exact xm_sane_y|reflexivity].
    + exfalso. assert (S (S t) < 2)%nat by (rewrite <- EL; apply nth_error_Some; congruence). lia.
  - intros t f _. split; auto.
  - intros o I EO k. apply in_map_iff in I as (q & <- & _). cbn [fst] in EO. subst q. reflexivity.
  - intros SP. assert (Q : VNoSpace = VAll); [|discriminate]. apply (SP (PWrite 0, fun _ => VNoSpace)) with (k := 0%nat); [|reflexivity].
    unfold xs_ops. apply in_map_iff. exists (PWrite 0). split; [reflexivity|].
    unfold xm_two. apply in_or_app. right. apply in_or_app. right. apply in_or_app. left.
    unfold xm_download. right. apply in_or_app. right. do 6 right. left. reflexivity.
  - destruct (pr_torrents s) as [|x [|y [|z l]]]; cbn in E0, E1, EL; try discriminate. injection E0 as _ E0 E0'. injection E1 as _ E1 E1'. cbn. rewrite E0, E1, E0', E1'. reflexivity.
  - vm_compute. reflexivity.
  - vm_compute. reflexivity.
Qed.

(** The same operations with and without room for the first torrent: the peers see no difference, the disk does. *)
Example C89_example_unnoticed :
  let s := xs_run VNoSpace in let s0 := pr_run sha1 Debug xm_cwd (process_init xm_empty) (map fst (xs_ops VNoSpace)) in
  map completed (pr_torrents s) = map completed (pr_torrents s0) /\ map completed (pr_torrents s) = [[0; 1]; [0; 1]]%N /\
  pr_disk s [s2b "home"; s2b "x"] = Some (NFile []) /\ pr_disk s0 [s2b "home"; s2b "x"] = Some (NFile xm_a).
Proof. vm_compute. auto. Qed.
