(** PropMain: properties C54-C58 (the whole program: requests, trackers, several torrents, one disk) *)
From Coq Require Import Permutation.
From Verif Require Import Base Utf8 ModelBencode ModelMessages ModelTorrent ModelWriter ModelTracker ModelStream ModelPeer
  ModelActors ModelCache ModelMain ModelSha1 SpecMessages SpecTorrent SpecStream SpecWriter SpecPieces SpecSystem SpecSession
  SpecLookup SpecMain ProofSha1 PropLookup ProofMain.

(** ** Examples: real hashes, torrents of five bytes in one file called [name], pieces of three bytes. *)
Definition xm_info (name data : bytes) : info :=
  {| i_length := Some 5%N; i_files := None; i_name := name; i_piece_length := 3%N;
     i_pieces := sha1 (torrent_piece data 3 0) ++ sha1 (torrent_piece data 3 1) |}.
Definition xm_hash (name data : bytes) : bytes := compute_info_hash sha1 (xm_info name data).
Definition xm_hex (b : bytes) : bytes := flat_map (fun x => [hex_digit (x / 16); hex_digit (x mod 16)]) b.
Definition xm_link (h : bytes) : bytes := s2b "magnet:?xt=urn:btih:" ++ xm_hex h ++ s2b "&dn=x".
Definition xm_peers (n : nat) : list address := map (fun k => ex_address (N.of_nat k)) (seq 0 n).
Definition xm_same : nat -> list apeer -> list apeer := fun _ l => l.
Definition xm_pid : bytes := repeat 66%N 20.
(** A request, handed on to all trackers; tracker 0 answers with eleven reachable peers. *)
Definition xm_add (h : bytes) : list pop :=
  [PAdd (xm_link h) false; PInterface (fun _ => false); PTake 0; PLookup 0 0 (ex_online (xm_peers 11))]
  ++ repeat (PReport 0 0 (fun _ => true)) 12.
(** Torrent [t] gets its description from the first peer and its two pieces from others. *)
Definition xm_download (t : nat) (name data : bytes) : list pop :=
  let h := xm_hash name data in
  let meta := enc_info (xm_info name data) in
  PHandle t 0 1000 5 (Some (info_seed h xm_pid (lenN meta) 3 [meta])) xm_pid xm_same ::
  repeat (PHandle t 0 0 0 None xm_pid xm_same) 10 ++
  [PStart t; PStart t;
   PFinish t 0 (Some (seed h xm_pid 0 [torrent_piece data 3 0])) xm_pid 9;
   PFinish t 0 (Some (seed h xm_pid 1 [torrent_piece data 3 1])) xm_pid 9;
   PHandle t 0 0 0 None xm_pid xm_same; PHandle t 0 0 0 None xm_pid xm_same; PWrite t; PWrite t].
Definition xm_cwd : loc := [s2b "home"].
Definition xm_empty : fs := fun _ => None.
Definition xm_run (ops : list pop) : process := pr_run sha1 Debug xm_cwd (process_init xm_empty) ops.
Definition xm_a : bytes := [1; 2; 3; 4; 5]%N.
Definition xm_b : bytes := [6; 7; 8; 9; 10]%N.
Definition xm_two (name name' : bytes) : list pop :=
  xm_add (xm_hash name xm_a) ++ xm_add (xm_hash name' xm_b) ++ xm_download 0 name xm_a ++ xm_download 1 name' xm_b.

(** Every tracker is asked, answers with two peers and deals with them. *)
Definition xm_settle : list pop :=
  PInterface (fun _ => false) ::
  flat_map (fun k => [PTake k; PLookup k 0 (ex_online (xm_peers 2)); PReport k 0 (fun _ => true);
                      PReport k 0 (fun _ => true); PReport k 0 (fun _ => true)]) (seq 0 18).
(** Every tracker is asked while the network is down. *)
Definition xm_outage (h : bytes) : list pop :=
  PAdd (xm_link h) false :: PInterface (fun _ => false) :: flat_map (fun k => [PTake k; PLookup k 0 ex_offline]) (seq 0 18).

Ltac ops_ok := repeat constructor; intros ? ?; apply Permutation_refl.

(** ** C54: adding a torrent *)

(** C54: a link with a hexadecimal hash is answered with 200, and exactly one torrent is started, for
    that hash; everything else stays as it was. *)
Theorem C54_link_starts_torrent : forall p full raw s h, hex_link raw h ->
  let (a, s') := add_magnet p full raw s in
  a = Answer 200 (s2b "Test") /\ pr_torrents s' = pr_torrents s ++ [sys_init h (pr_disk s)] /\
  pr_trackers s' = pr_trackers s /\ pr_disk s' = pr_disk s.
Proof.
  intros p full raw s h H. pose proof (c54_request p full raw s) as R. destruct (add_magnet p full raw s) as [a s'].
  rewrite (c54_hex p raw h H) in R. tauto.
Qed.
Print Assumptions C54_link_starts_torrent.

(** C54: any request: either one torrent more, for a hash of 20 or 32 bytes, or no effect and no success. *)
Theorem C54_any_request : forall p full raw s,
  let (a, s') := add_magnet p full raw s in
  (exists h, (List.length h = 20 \/ List.length h = 32)%nat /\ firstn 8 raw = s2b "magnet:?" /\
     a = Answer 200 (s2b "Test") /\ pr_torrents s' = pr_torrents s ++ [sys_init h (pr_disk s)] /\ pr_disk s' = pr_disk s) \/
  (s' = s /\ a = if (262144 <? lenN raw)%N then Answer 413 [] else if utf8_valid raw then NoAnswer else Answer 400 []).
Proof. exact c54_any. Qed.
Print Assumptions C54_any_request.

(** C54: at any moment the torrents are those of the accepted requests, in their order. *)
Theorem C54_torrents_are_requests : forall sha1 p cwd d ops s, started sha1 p cwd d ops s ->
  map (fun x => ta_info_hash (sy_actor x)) (pr_torrents s) = accepted p ops.
Proof. exact c54_count. Qed.
Print Assumptions C54_torrents_are_requests.

(** C54: a link that is not understood gets no answer at all: the handler aborts. *)
Theorem C54_always_answered_refuted : exists raw, (forall p full s, add_magnet p full raw s = (NoAnswer, s)) /\
  utf8_valid raw = true /\ (List.length raw < 60)%nat.
Proof.
  exists (s2b "magnet:?xt=urn:btih:0123456789"). split; [|split; [reflexivity|vm_compute; repeat constructor]].
  intros p full s. pose proof (c54_request p full (s2b "magnet:?xt=urn:btih:0123456789") s) as R.
  destruct (add_magnet p full (s2b "magnet:?xt=urn:btih:0123456789") s) as [a s']. destruct p; vm_compute in R; destruct R as [-> ->]; reflexivity.
Qed.
Print Assumptions C54_always_answered_refuted.

(** C54: the same link twice starts the torrent twice. *)
Theorem C54_once_refuted : exists raw h, hex_link raw h /\ forall sha1 p cwd d,
  map (fun x => ta_info_hash (sy_actor x)) (pr_torrents (pr_run sha1 p cwd (process_init d) [PAdd raw false; PAdd raw false])) = [h; h].
Proof.
  exists (xm_link (repeat 171%N 20)), (repeat 171%N 20).
  assert (H : hex_link (xm_link (repeat 171%N 20)) (repeat 171%N 20)).
  { exists (xm_hex (repeat 171%N 20)), (s2b "dn=x"). repeat split; vm_compute; congruence. }
  split; [exact H|]. intros hash p cwd d.
  rewrite (c54_count hash p cwd d [PAdd (xm_link (repeat 171%N 20)) false; PAdd (xm_link (repeat 171%N 20)) false]).
  - cbn [accepted flat_map]. rewrite (c54_hex p _ _ H). reflexivity.
  - split; [repeat constructor|reflexivity].
Qed.
Print Assumptions C54_once_refuted.

Example C54_example : hex_link (xm_link (xm_hash (s2b "x") xm_a)) (xm_hash (s2b "x") xm_a) /\
  map (fun x => ta_info_hash (sy_actor x)) (pr_torrents (xm_run (xm_two (s2b "x") (s2b "y")))) = [xm_hash (s2b "x") xm_a; xm_hash (s2b "y") xm_b].
Proof.
  split; [|vm_compute; reflexivity].
  exists (xm_hex (xm_hash (s2b "x") xm_a)), (s2b "dn=x"). repeat split; vm_compute; congruence.
Qed.

(** ** C55: who is asked *)

(** C55: whatever a tracker is asked, it is asked for the hash of an accepted link, on behalf of the
    torrent of that link. *)
Theorem C55_right_hash : forall sha1 p cwd d ops s x, started sha1 p cwd d ops s ->
  In x (lookups sha1 p cwd (process_init d) ops) -> nth_error (accepted p ops) (ld_torrent x) = Some (ld_hash x).
Proof. exact c55_hash. Qed.
Print Assumptions C55_right_hash.

(** C55: no tracker is asked twice for the same torrent (so peers that join later are never found). *)
Theorem C55_at_most_once : forall sha1 p cwd d ops s k t, started sha1 p cwd d ops s ->
  (List.length (between k t (lookups sha1 p cwd (process_init d) ops)) <= 1)%nat.
Proof. exact c55_once. Qed.
Print Assumptions C55_at_most_once.

(** C55: every tracker that lives has been asked for every torrent, once it has nothing left to do. *)
Theorem C55_everybody : forall sha1 p cwd d ops s k t x, started sha1 p cwd d ops s -> Forall never_full ops -> trackers_idle s ->
  nth_error (pr_trackers s) k = Some x -> tk_alive x = true -> (t < List.length (accepted p ops))%nat ->
  List.length (between k t (lookups sha1 p cwd (process_init d) ops)) = 1%nat.
Proof. exact c55_all. Qed.
Print Assumptions C55_everybody.

Definition xm_one : list pop := PAdd (xm_link (xm_hash (s2b "x") xm_a)) false :: xm_settle.
Example C55_example : started sha1 Debug xm_cwd xm_empty xm_one (xm_run xm_one) /\ Forall never_full xm_one /\
  trackers_idle (xm_run xm_one) /\ trackers_alive (xm_run xm_one) /\
  map ld_tracker (lookups sha1 Debug xm_cwd (process_init xm_empty) xm_one) = seq 0 18 /\
  Forall (fun x => ld_hash x = xm_hash (s2b "x") xm_a) (lookups sha1 Debug xm_cwd (process_init xm_empty) xm_one).
Proof.
  split; [split; [ops_ok|reflexivity]|]. split; [repeat constructor|].
  split; [|split; [|split; [vm_compute; reflexivity|vm_compute; repeat constructor]]].
  - split; [vm_compute; reflexivity|]. intros x I. vm_compute in I. repeat (destruct I as [<-|I]; [split; reflexivity|]). destruct I.
  - intros x I. vm_compute in I. repeat (destruct I as [<-|I]; [reflexivity|]). destruct I.
Qed.

(** ** C56: the peers found *)

(** C56: a torrent hears only of peers from answers to lookups for itself. *)
Theorem C56_only_answers : forall sha1 p cwd d ops s t x ep, started sha1 p cwd d ops s ->
  nth_error (pr_torrents s) t = Some x -> In ep (reported x) ->
  exists e, In e (peers_for t (lookups sha1 p cwd (process_init d) ops)) /\ ep = endpoint e.
Proof. exact c56_only. Qed.
Print Assumptions C56_only_answers.

(** C56: and of every reachable one, once per answer that has it. *)
Theorem C56_all_answers : forall sha1 p cwd d c ops s t x, started sha1 p cwd d ops s -> Forall (reachability c) ops ->
  trackers_alive s -> trackers_idle s -> nth_error (pr_torrents s) t = Some x -> sy_dead x = false ->
  Permutation (reported x) (map endpoint (filter (fun e => is_reachable c (endpoint e))
    (peers_for t (lookups sha1 p cwd (process_init d) ops)))).
Proof. exact c56_all. Qed.
Print Assumptions C56_all_answers.

Example C56_example : Forall (reachability (fun _ => true)) xm_one /\
  (forall x, nth_error (pr_torrents (xm_run xm_one)) 0 = Some x -> sy_dead x = false /\ lenN (reported x) = 36%N /\
    incl (reported x) [s2b "10.0.0.1:6881"; s2b "10.0.0.2:6881"]).
Proof.
  split; [repeat constructor|]. intros x H. vm_compute in H. injection H as <-. split; [reflexivity|]. split; [reflexivity|].
  intros e I. vm_compute in I. vm_compute. repeat (destruct I as [<-|I]; [auto|]). destruct I.
Qed.

(** ** C57: a network outage *)

(** C57: a tracker whose lookup aborted is never asked again. *)
Theorem C57_dead_for_good : forall sha1 p cwd d ops s k x ops', started sha1 p cwd d ops s ->
  nth_error (pr_trackers s) k = Some x -> tk_alive x = false ->
  (exists x', nth_error (pr_trackers (pr_run sha1 p cwd s ops')) k = Some x' /\ tk_alive x' = false) /\
  forall y, In y (lookups sha1 p cwd s ops') -> ld_tracker y <> k.
Proof. exact c57_dead. Qed.
Print Assumptions C57_dead_for_good.

(** C57: when all have, no lookup is made any more, no torrent learns of any further peer, and none
    that is added later learns of a single one. *)
Theorem C57_all_dead : forall sha1 p cwd d ops s ops', started sha1 p cwd d ops s -> Forall pop_ok ops' ->
  (forall x, In x (pr_trackers s) -> tk_alive x = false) ->
  let s' := pr_run sha1 p cwd s ops' in
  lookups sha1 p cwd s ops' = [] /\
  forall t x, nth_error (pr_torrents s') t = Some x ->
    ((List.length (pr_torrents s) <= t)%nat -> reported x = []) /\
    (forall ep, In ep (reported x) -> exists e, In e (peers_for t (lookups sha1 p cwd (process_init d) ops)) /\ ep = endpoint e).
Proof. exact c57_outage. Qed.
Print Assumptions C57_all_dead.

(** C57: so the program does not recover from adding one torrent while the network is down: whatever
    is added later and whatever the network does then, nobody ever hears of a peer. *)
Theorem C57_recovers_refuted : exists ops s, started sha1 Debug xm_cwd xm_empty ops s /\ (List.length (accepted Debug ops) = 1)%nat /\
  forall ops', Forall pop_ok ops' -> forall x, In x (pr_torrents (pr_run sha1 Debug xm_cwd s ops')) -> reported x = [].
Proof.
  exists (xm_outage (xm_hash (s2b "x") xm_a)), (xm_run (xm_outage (xm_hash (s2b "x") xm_a))).
  assert (R : started sha1 Debug xm_cwd xm_empty (xm_outage (xm_hash (s2b "x") xm_a)) (xm_run (xm_outage (xm_hash (s2b "x") xm_a)))).
  { split; [ops_ok|reflexivity]. }
  split; [exact R|]. split; [vm_compute; reflexivity|]. intros ops' F x I. apply In_nth_error in I as (t & E).
  destruct (c57_outage _ _ _ _ _ _ ops' R F) as [_ H].
  { intros y Y. vm_compute in Y. repeat (destruct Y as [<-|Y]; [reflexivity|]). destruct Y. }
  destruct (H t x E) as [_ N]. destruct (reported x) as [|ep l]; [reflexivity|]. exfalso.
  destruct (N ep (or_introl eq_refl)) as (e & IE & _).
  assert (Z : flat_map answer_peers (lookups sha1 Debug xm_cwd (process_init xm_empty) (xm_outage (xm_hash (s2b "x") xm_a))) = []) by (vm_compute; reflexivity).
  exact (no_answers _ t e Z IE).
Qed.
Print Assumptions C57_recovers_refuted.

Example C57_example : let s := xm_run (xm_outage (xm_hash (s2b "x") xm_a) ++ xm_add (xm_hash (s2b "y") xm_b)) in
  map (fun x => reported x) (pr_torrents s) = [[]; []] /\ Forall (fun x => tk_alive x = false) (pr_trackers s).
Proof. split; [vm_compute; reflexivity|]. vm_compute. repeat constructor. Qed.

(** ** C58: several torrents *)

(** C58: apart from writing, each torrent behaves as some execution of it alone, so everything proved
    about a torrent alone (C39-C41, C43-C46) holds of each torrent of a process. *)
Theorem C58_as_alone : forall sha1 p cwd d ops s, started sha1 p cwd d ops s ->
  forall t x, nth_error (pr_torrents s) t = Some x ->
  exists h s0, nth_error (accepted p ops) t = Some h /\ reached sha1 p cwd h d s0 /\ agree s0 x.
Proof. exact c58_alone. Qed.
Print Assumptions C58_as_alone.

(** C58: torrents that have nothing to do with each other (or are the same) do not disturb each other
    on the disk: unless a peer has sent wrong data with the right hash, all writers live, what was right
    stays right, all bytes of the pieces written are in place, each torrent all of whose pieces are
    written is complete, and nothing else on the disk has changed except the saved descriptions. *)
Theorem C58_common_disk : forall sha1 p cwd F T d ops s, started sha1 p cwd d ops s ->
  apart (List.length (pr_torrents s)) F T -> (forall t, (t < List.length (pr_torrents s))%nat -> disk_ready cwd (F t) d) ->
  told sha1 F T s ->
  some_collision sha1 T s \/
  (forall t x, nth_error (pr_torrents s) t = Some x ->
    sy_writer_dead x = false /\ disk_ready cwd (F t) (pr_disk s) /\
    (forall g, holds cwd (F t) (T t) d g -> holds cwd (F t) (T t) (pr_disk s) g) /\
    forall i, ta_info (sy_actor x) = Some i ->
      (forall g, In (g / i_piece_length i)%N (written x) -> holds cwd (F t) (T t) (pr_disk s) g) /\
    ((forall idx, (idx < piece_count (lenN (T t)) (i_piece_length i))%N -> In idx (written x)) ->
        forall k f, nth_error (F t) k = Some f -> (0 < f_length f)%N ->
          pr_disk s (cwd ++ f_path f) = Some (NFile (file_content (T t) (F t) k f)))) /\
  (forall l, (forall t, (t < List.length (pr_torrents s))%nat -> unrelated cwd (F t) l) -> ~ in_saved cwd l -> pr_disk s l = d l).
Proof. exact c58_disk. Qed.
Print Assumptions C58_common_disk.

Definition xm_files (name : bytes) : list file := [{| f_path := [name]; f_length := 5%N |}].
Lemma xm_describes : forall name data, sane_path [name] -> List.length data = 5%nat -> describes sha1 (xm_info name data) (xm_files name) data.
Proof.
  intros name data SP L. assert (LN : lenN data = 5%N) by (unfold lenN; rewrite L; reflexivity).
  assert (G : good_files (xm_files name)).
  { split; [constructor; [exact SP|constructor]|].
    intros i j f g HI HJ NE. destruct i as [|[|i]], j as [|[|j]]; try discriminate; congruence. }
  split; [apply SpecTorrent.co_single; reflexivity|]. split; [rewrite LN; reflexivity|]. split; [rewrite LN; reflexivity|]. split; [reflexivity|]. split; [exact G|].
  intros idx I. rewrite LN in I. cbn [xm_info i_piece_length i_pieces] in *.
  assert (D : forall m, List.length (sha1 m) = 20%nat) by (intros; apply digest_length).
  assert (C : (idx = 0 \/ idx = 1)%N) by (change (piece_count 5 3) with 2%N in I; lia).
  destruct C as [-> | ->].
  - change (20 * N.to_nat 0)%nat with 0%nat. rewrite skipn_O, firstn_app, D, Nat.sub_diag. rewrite firstn_all2 by (rewrite D; auto). apply app_nil_r.
  - change (20 * N.to_nat 1)%nat with 20%nat. rewrite skipn_app, D, Nat.sub_diag, skipn_all2 by (rewrite D; auto).
    cbn [skipn app]. apply firstn_all2. rewrite D. auto.
Qed.

Lemma xm_sane_x : sane_path [s2b "x"].
Proof. split; [discriminate|]. constructor; [|constructor]. repeat split; try discriminate; intros [H|[]]; discriminate. Qed.
Lemma xm_sane_y : sane_path [s2b "y"].
Proof. split; [discriminate|]. constructor; [|constructor]. repeat split; try discriminate; intros [H|[]]; discriminate. Qed.

Example C58_example :
  let s := xm_run (xm_two (s2b "x") (s2b "y")) in
  let F t := if (t =? 0)%nat then xm_files (s2b "x") else xm_files (s2b "y") in
  let T t := if (t =? 0)%nat then xm_a else xm_b in
  started sha1 Debug xm_cwd xm_empty (xm_two (s2b "x") (s2b "y")) s /\ List.length (pr_torrents s) = 2%nat /\
  apart 2 F T /\ told sha1 F T s /\ (forall t, disk_ready xm_cwd (F t) xm_empty) /\
  map written (pr_torrents s) = [[0; 1]; [0; 1]]%N /\
  pr_disk s [s2b "home"; s2b "x"] = Some (NFile xm_a) /\ pr_disk s [s2b "home"; s2b "y"] = Some (NFile xm_b).
Proof.
  intros s F T.
  assert (E : option_map (fun x => (ta_info (sy_actor x), written x)) (nth_error (pr_torrents s) 0) = Some (Some (xm_info (s2b "x") xm_a), [0; 1]%N) /\
              option_map (fun x => (ta_info (sy_actor x), written x)) (nth_error (pr_torrents s) 1) = Some (Some (xm_info (s2b "y") xm_b), [0; 1]%N) /\
              List.length (pr_torrents s) = 2%nat) by (split; [|split]; vm_compute; reflexivity).
  destruct E as (E0 & E1 & EL).
  split; [split; [ops_ok|reflexivity]|]. split; [exact EL|]. split; [|split; [|split; [|split; [|split]]]].
  - split.
    + intros t _. unfold F. destruct (t =? 0)%nat; split.
      * apply (xm_describes (s2b "x") xm_a); [exact xm_sane_x|reflexivity].
      * intros f [<-|[]]. discriminate.
      * apply (xm_describes (s2b "y") xm_b); [exact xm_sane_y|reflexivity].
      * intros f [<-|[]]. discriminate.
    + intros t u _ _. unfold F, T. destruct (t =? 0)%nat, (u =? 0)%nat; auto; right; intros f g [<-|[]] [<-|[]]; split; intros (c & H); discriminate.
  - intros t x i H I. unfold F, T. destruct t as [|[|t]]; cbn [Nat.eqb].
    + rewrite H in E0. cbn in E0. injection E0 as E0 _. rewrite E0 in I. injection I as <-. apply xm_describes; [exact xm_sane_x|reflexivity].
    + rewrite H in E1. cbn in E1. injection E1 as E1 _. rewrite E1 in I. injection I as <-. apply xm_describes; [exact xm_sane_y|reflexivity].
    + exfalso. assert (S (S t) < 2)%nat by (rewrite <- EL; apply nth_error_Some; congruence). lia.
  - intros t f _. split; auto.
  - destruct (pr_torrents s) as [|x [|y [|z l]]]; cbn in E0, E1, EL; try discriminate. injection E0 as _ E0. injection E1 as _ E1. cbn. rewrite E0, E1. reflexivity.
  - vm_compute. reflexivity.
  - vm_compute. reflexivity.
Qed.

(** C58: but torrents are not kept apart by the program: two different torrents whose file has the
    same name both complete, and one of them has lost its content. *)
Theorem C58_kept_apart_refuted : exists ops s x0 x1 i0 i1 T0 T1 f,
  started sha1 Debug xm_cwd xm_empty ops s /\ pr_torrents s = [x0; x1] /\
  ta_info (sy_actor x0) = Some i0 /\ ta_info (sy_actor x1) = Some i1 /\
  ta_info_hash (sy_actor x0) = compute_info_hash sha1 i0 /\ ta_info_hash (sy_actor x1) = compute_info_hash sha1 i1 /\
  describes sha1 i0 [f] T0 /\ describes sha1 i1 [f] T1 /\ written x0 = [0; 1]%N /\ written x1 = [0; 1]%N /\
  pr_disk s (xm_cwd ++ f_path f) = Some (NFile T1) /\ T0 <> T1.
Proof.
  assert (E : let s := xm_run (xm_two (s2b "x") (s2b "x")) in
    map (fun x => (ta_info (sy_actor x), ta_info_hash (sy_actor x), written x)) (pr_torrents s)
    = [(Some (xm_info (s2b "x") xm_a), xm_hash (s2b "x") xm_a, [0; 1]%N); (Some (xm_info (s2b "x") xm_b), xm_hash (s2b "x") xm_b, [0; 1]%N)]
    /\ pr_disk s [s2b "home"; s2b "x"] = Some (NFile xm_b)) by (split; vm_compute; reflexivity).
  cbv zeta in E.
  assert (R : started sha1 Debug xm_cwd xm_empty (xm_two (s2b "x") (s2b "x")) (xm_run (xm_two (s2b "x") (s2b "x")))) by (split; [ops_ok|reflexivity]).
  revert E R. generalize (xm_run (xm_two (s2b "x") (s2b "x"))) as s. intros s [E D] R.
  destruct (pr_torrents s) as [|x0 [|x1 [|z l]]] eqn:P; cbn [map] in E; try discriminate. injection E as A0 B0 C0 A1 B1 C1.
  exists (xm_two (s2b "x") (s2b "x")), s, x0, x1, (xm_info (s2b "x") xm_a), (xm_info (s2b "x") xm_b), xm_a, xm_b, {| f_path := [s2b "x"]; f_length := 5%N |}.
  split; [exact R|]. split; [exact P|]. split; [exact A0|]. split; [exact A1|]. split; [exact B0|]. split; [exact B1|].
  split; [apply (xm_describes (s2b "x") xm_a); [exact xm_sane_x|reflexivity]|].
  split; [apply (xm_describes (s2b "x") xm_b); [exact xm_sane_x|reflexivity]|].
  split; [exact C0|]. split; [exact C1|]. split; [exact D|]. discriminate.
Qed.
Print Assumptions C58_kept_apart_refuted.
