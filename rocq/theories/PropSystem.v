(** PropSystem: properties C39-C46 (a whole torrent: discovery, workers, bookkeeping and writing) *)
From Coq Require Import Permutation.
From Verif Require Import Base ModelBencode ModelMessages ModelTorrent ModelStream ModelPeer ModelWriter ModelActors
  SpecMessages SpecStream SpecWriter SpecPieces SpecSystem PropPeer ProofSystem.

(** An example torrent: five bytes, two pieces, one file; eleven peers are reported, the first of
    them supplies the metadata. *)
Definition ex_data : bytes := [1; 2; 3; 4; 5]%N.
Definition ex_meta : info := ex_info (ex_sha1 [1; 2; 3]%N ++ ex_sha1 [4; 5]%N).
Definition ex_same : nat -> list apeer -> list apeer := fun _ l => l.
Definition ex_serving (messages : bytes) : option stream :=
  Some (ex_socket (handshake_layout (compute_info_hash ex_sha1 ex_meta) (repeat 8%N 20) ++ ex_extended ++ frame 1 [] ++ messages)).
Definition ex_ep (k : N) : bytes := s2b "10.0.0.1:" ++ [49 + k / 10; 48 + k mod 10; 48; 48]%N.
Definition ex_empty : fs := fun _ => None.
Definition ex_handle (found : option info) : op := OHandle 0 (Ret found) ex_same.
Definition ex_finish (messages : bytes) : op := OFinish 0 (ex_serving messages) (repeat 1%N 20) 50.
Definition ex_begin (peers : nat) : list op :=
  map (fun k => OPeer (ex_ep (N.of_nat k))) (seq 0 peers) ++ ex_handle (Some ex_meta) :: repeat (ex_handle None) (peers - 1).
Definition ex_run (ops : list op) : sys := sys_run ex_sha1 Debug [s2b "home"] (sys_init ex_hash ex_empty) ops.
Definition ex_all : list op := ex_begin 11 ++
  [OStart; OStart; ex_finish (block_of 0 0 [1; 2; 9]%N); ex_finish (block_of 1 0 [4; 5]%N); ex_handle None;
   OStart; ex_finish (block_of 0 0 [1; 2; 3]%N); ex_handle None; OWrite; ex_handle None].

(** C39: every piece is waiting, in flight, completed, or went down with an aborted worker; each in
    exactly one place. *)
Theorem C39_every_piece_somewhere : forall sha1 p cwd ih d s, reached sha1 p cwd ih d s ->
  match ta_info (sy_actor s) with
  | None => waiting s = [] /\ in_flight s = [] /\ completed s = []
  | Some i => exists n lost, pieces_of p i n /\ (List.length lost + sy_workers s = 5)%nat /\
      Permutation (waiting s ++ in_flight s ++ completed s ++ lost) (numbers n)
  end.
Proof. exact c39. Qed.
Print Assumptions C39_every_piece_somewhere.

(** C39: as long as no worker has aborted, each piece is in exactly one of the three places. *)
Theorem C39_exactly_one_place : forall sha1 p cwd ih d s i n idx, reached sha1 p cwd ih d s ->
  ta_info (sy_actor s) = Some i -> pieces_of p i n -> sy_workers s = 5%nat -> (idx < n)%N ->
  (count_occ N.eq_dec (waiting s) idx + count_occ N.eq_dec (in_flight s) idx + count_occ N.eq_dec (completed s) idx = 1)%nat.
Proof. exact c39_one. Qed.
Print Assumptions C39_exactly_one_place.

Example C39_example :
  let places k := let s := ex_run (firstn k ex_all) in (waiting s, in_flight s, completed s) in
  map places [0; 12; 21; 22; 24; 25; 27; 30; 32]%nat
  = [([], [], []); ([0; 1], [], []); ([0; 1], [], []); ([], [0; 1], []); ([], [0; 1], []); ([], [1; 0], []);
     ([], [0; 1], []); ([], [0], [1]); ([], [], [1; 0])]%N.
Proof. vm_compute. reflexivity. Qed.

(** C39: without that proviso a piece is lost for good: whenever fewer than five workers are alive,
    some piece is nowhere, now and forever. *)
Theorem C39_aborted_worker : forall sha1 p cwd ih d s i n ops, reached sha1 p cwd ih d s ->
  ta_info (sy_actor s) = Some i -> pieces_of p i n -> (sy_workers s < 5)%nat -> Forall op_ok ops ->
  let s' := sys_run sha1 p cwd s ops in
  exists idx, (idx < n)%N /\ ~ In idx (completed s') /\ ~ In idx (waiting s') /\ ~ In idx (in_flight s').
Proof. exact c39_abort. Qed.
Print Assumptions C39_aborted_worker.

(** C39: a peer can do that to anybody, with an empty piece message. *)
Theorem C39_lost_piece_refuted : exists s, reached ex_sha1 Debug [s2b "home"] ex_hash ex_empty s /\
  ta_info (sy_actor s) = Some ex_meta /\ pieces_of Debug ex_meta 2 /\ sy_workers s = 4%nat /\
  waiting s = [] /\ in_flight s = [1%N] /\ completed s = [].
Proof.
  exists (ex_run (ex_begin 11 ++ [OStart; ex_finish (frame 7 [])])). split.
  - exists (ex_begin 11 ++ [OStart; ex_finish (frame 7 [])]). split; [|reflexivity].
    apply Forall_forall. intros o H. destruct o; try exact I.
    assert (E : shuffle = ex_same).
    { cbn in H. repeat (destruct H as [H|H]; [try discriminate; injection H; auto|]). contradiction. }
    rewrite E. intros k0 l. apply Permutation_refl.
  - split; [vm_compute; reflexivity|]. split; [exists 5%N; vm_compute; auto|]. vm_compute. auto.
Qed.
Print Assumptions C39_lost_piece_refuted.

(** C40: never more in flight than there are workers, of which there are five at first; and once a
    piece has been requested, fewer are in flight only if no piece waits. *)
Theorem C40_concurrency : forall sha1 p cwd ih d s, reached sha1 p cwd ih d s ->
  (List.length (in_flight s) <= sy_workers s <= 5)%nat /\
  (requested (sy_trace s) <> [] -> (List.length (in_flight s) < sy_workers s)%nat -> waiting s = []).
Proof. exact c40. Qed.
Print Assumptions C40_concurrency.

(** Seven pieces: five are requested when the eleventh peer is reported, and each answer brings the
    next request. *)
Definition ex_meta7 : info :=
  {| i_length := Some 7%N; i_files := None; i_name := s2b "x"; i_piece_length := 1%N; i_pieces := repeat 0%N 140 |}.
Example C40_example :
  let refused := OFinish 0 None [] 0 in
  let s := ex_run (map (fun k => OPeer (ex_ep (N.of_nat k))) (seq 0 11) ++ ex_handle (Some ex_meta7) :: repeat (ex_handle None) 10) in
  let s' := sys_run ex_sha1 Debug [s2b "home"] s [OStart; OStart; refused; ex_handle None] in
  (waiting s, in_flight s, waiting s', in_flight s') = ([5; 6], [0; 1; 2; 3; 4], [6; 0], [2; 3; 4; 5; 1])%N.
Proof. vm_compute. reflexivity. Qed.

(** C41: no piece is handed to the writer twice. *)
Theorem C41_at_most_once : forall sha1 p cwd ih d s, reached sha1 p cwd ih d s -> NoDup (completed s).
Proof. exact c41. Qed.
Print Assumptions C41_at_most_once.

(** C41: when nothing waits and nothing is in flight, every piece has been handed over. *)
Theorem C41_exactly_once : forall sha1 p cwd ih d s i n, reached sha1 p cwd ih d s ->
  ta_info (sy_actor s) = Some i -> pieces_of p i n -> sy_workers s = 5%nat -> waiting s = [] -> in_flight s = [] ->
  Permutation (completed s) (numbers n).
Proof. exact c41_done. Qed.
Print Assumptions C41_exactly_once.

(** C41: the writer's queue is what was handed over and not yet dealt with, in order. *)
Theorem C41_writer_queue : forall sha1 p cwd ih d s, reached sha1 p cwd ih d s ->
  exists done, to_writer (sy_trace s) = done ++ sy_writer s.
Proof. exact writer_suffix. Qed.
Print Assumptions C41_writer_queue.

Example C41_example : completed (ex_run ex_all) = [1; 0]%N /\ map rd_idx (sy_writer (ex_run ex_all)) = [0%N] /\
  map rd_piece (to_writer (sy_trace (ex_run ex_all))) = [[4; 5]; [1; 2; 3]]%N.
Proof. vm_compute. auto. Qed.

(** C42: at every moment of every execution, unless a peer has sent wrong data with the right hash:
    the writer lives, all bytes of the pieces written so far are in place, what was right stays right,
    nothing else on the disk changes; and when all pieces have been written every non-empty file is right. *)
Theorem C42_disk : forall sha1 p cwd ih d s i files T, reached sha1 p cwd ih d s ->
  ta_info (sy_actor s) = Some i -> describes sha1 i files T -> disk_ready cwd files d ->
  collision sha1 (i_piece_length i) T s \/
  (sy_writer_dead s = false /\ disk_ready cwd files (sy_disk s) /\
   (forall g, holds cwd files T d g \/ In (g / i_piece_length i)%N (written s) -> holds cwd files T (sy_disk s) g) /\
   (forall l, unrelated cwd files l -> sy_disk s l = d l) /\
   ((forall idx, (idx < piece_count (lenN T) (i_piece_length i))%N -> In idx (written s)) ->
     forall k f, nth_error files k = Some f -> (0 < f_length f)%N ->
       sy_disk s (cwd ++ f_path f) = Some (NFile (file_content T files k f)))).
Proof. exact c42. Qed.
Print Assumptions C42_disk.

(** C42: all pieces have been written as soon as nothing waits, is in flight or queues. *)
Theorem C42_all_written : forall sha1 p cwd ih d s i files T, reached sha1 p cwd ih d s ->
  ta_info (sy_actor s) = Some i -> describes sha1 i files T ->
  sy_workers s = 5%nat -> waiting s = [] -> in_flight s = [] -> sy_writer s = [] ->
  forall idx, (idx < piece_count (lenN T) (i_piece_length i))%N -> In idx (written s).
Proof. exact c42_done. Qed.
Print Assumptions C42_all_written.

(** C42: the program may be stopped at any moment, even inside a write, and started again. *)
Theorem C42_restart : forall sha1 p p' cwd ih ih' d s d' s' i files T, reached sha1 p cwd ih d s ->
  ta_info (sy_actor s) = Some i -> describes sha1 i files T -> disk_ready cwd files d ->
  interrupted p cwd files (i_piece_length i) T (sy_disk s) d' ->
  reached sha1 p' cwd ih' d' s' -> ta_info (sy_actor s') = Some i ->
  (forall idx, (idx < piece_count (lenN T) (i_piece_length i))%N -> In idx (written s')) ->
  collision sha1 (i_piece_length i) T s \/ collision sha1 (i_piece_length i) T s' \/
  ((forall k f, nth_error files k = Some f -> (0 < f_length f)%N ->
      sy_disk s' (cwd ++ f_path f) = Some (NFile (file_content T files k f))) /\
   (forall l, unrelated cwd files l -> sy_disk s' l = d l)).
Proof. exact c42_restart. Qed.
Print Assumptions C42_restart.

Example C42_example :
  let s := ex_run ex_all in let s' := sys_run ex_sha1 Debug [s2b "home"] s [OWrite] in
  sy_disk s [s2b "home"; s2b "x"] = Some (NFile [0; 0; 0; 4; 5]%N) /\ sy_disk s' [s2b "home"; s2b "x"] = Some (NFile ex_data) /\
  written s = [1%N] /\ written s' = [1; 0]%N.
Proof. vm_compute. auto. Qed.
Example C42_described : describes ex_sha1 ex_meta [{| f_path := [s2b "x"]; f_length := 5%N |}] ex_data /\
  disk_ready [s2b "home"] [{| f_path := [s2b "x"]; f_length := 5%N |}] ex_empty.
Proof.
  split.
  - split; [apply SpecTorrent.co_single; reflexivity|]. split; [reflexivity|]. split; [reflexivity|]. split; [reflexivity|]. split.
    + split.
      * constructor; [|constructor]. split; [discriminate|]. constructor; [|constructor]. repeat split; try discriminate;
          intros [H|[]]; discriminate.
      * intros [|[|i]] [|[|j]] f g H1 H2 N; try discriminate. congruence.
    + intros idx H. vm_compute in H. destruct idx as [|[q|q|]]; [reflexivity|destruct q; discriminate|destruct q; discriminate|reflexivity].
  - intros f [<-|[]]. split; auto.
Qed.

(** C43: no request before the eleventh report of a peer has been handled. *)
Theorem C43_eleven_peers : forall sha1 p cwd ih d s, reached sha1 p cwd ih d s ->
  forall a r b, sy_trace s = a ++ Sent (ToConnections r) :: b -> (10 < lenN (found_peers (handled a)))%N.
Proof. exact c43. Qed.
Print Assumptions C43_eleven_peers.

(** C43: no request before the metadata is known. *)
Theorem C43_metadata : forall sha1 p cwd s o ev r, op_ok o ->
  sy_trace (sys_step sha1 p cwd s o) = sy_trace s ++ ev -> In (Sent (ToConnections r)) ev ->
  ta_info (sy_actor s) = Some (rq_info r).
Proof. exact c43_metadata. Qed.
Print Assumptions C43_metadata.

(** C43: with at most ten reports of peers nothing is ever requested and nothing is written. *)
Theorem C43_ten_peers : forall sha1 p cwd ih d ops, Forall op_ok ops -> (lenN (peer_reports ops) <= 10)%N ->
  let s := sys_run sha1 p cwd (sys_init ih d) ops in
  requested (sy_trace s) = [] /\ completed s = [] /\ sy_disk s = d.
Proof. exact c43_few. Qed.
Print Assumptions C43_ten_peers.

Example C43_example : map (fun k => lenN (requested (sy_trace (ex_run (ex_begin k))))) [1; 10; 11; 12]%nat = [0; 0; 2; 2]%N.
Proof. vm_compute. reflexivity. Qed.

(** C44: which peer is chosen, whatever the shuffle. *)
Theorem C44_preference : forall known shuffled, Permutation shuffled known ->
  match find_suitable_peer shuffled with
  | Ret ep => exists x, In x known /\ ap_endpoint x = ep /\
      ((exists y, In y known /\ (ap_failed y < 2)%N) -> (ap_failed x < 2)%N) /\
      ((exists y, In y known /\ (ap_failed y < 4)%N) -> (ap_failed x < 4)%N)
  | Panic => known = []
  | OutOfFuel => False
  end.
Proof. exact c44. Qed.
Print Assumptions C44_preference.

(** C44: in a running torrent the choice never fails: once the metadata is known the actor does not die. *)
Theorem C44_never_fails : forall sha1 p cwd ih d s i, reached sha1 p cwd ih d s ->
  ta_info (sy_actor s) = Some i -> sy_dead s = false.
Proof. exact c44_safe. Qed.
Print Assumptions C44_never_fails.

(** C44: where the endpoint of a request comes from: the peer that has just succeeded, or such a choice. *)
Theorem C44_requests : forall p found shuffle a m a' es r, handle p found shuffle a m = Ret (a', es) ->
  (forall k l, Permutation (shuffle k l) l) ->
  In (ToConnections r) es -> ta_info a = Some (rq_info r) /\
  match m with
  | PeerFound _ | PieceDownloadFailed _ _ => exists l, Permutation l (ta_peers a') /\ find_suitable_peer l = Ret (rq_endpoint r)
  | PieceDownloadSuccessfull ep _ _ => rq_endpoint r = ep
  end.
Proof. exact handle_requests. Qed.
Print Assumptions C44_requests.

(** C44: every request goes to a reported peer. *)
Theorem C44_reported_peers : forall sha1 p cwd ih d s r, reached sha1 p cwd ih d s -> In r (requested (sy_trace s)) ->
  In (rq_endpoint r) (found_peers (handled (sy_trace s))).
Proof. exact c44_known. Qed.
Print Assumptions C44_reported_peers.

Example C44_example :
  let peer e f := {| ap_endpoint := e; ap_downloaded := 0; ap_failed := f |} in
  map find_suitable_peer [[peer (s2b "a") 2; peer (s2b "b") 1; peer (s2b "c") 0]; [peer (s2b "a") 5; peer (s2b "b") 3]; [peer (s2b "a") 9; peer (s2b "b") 4]]%N
  = [Ret (s2b "b"); Ret (s2b "b"); Ret (s2b "a")].
Proof. vm_compute. reflexivity. Qed.

(** C45: the peer list is the list of reports, and the counters of each entry count what was reported
    since. *)
Theorem C45_counters : forall sha1 p cwd ih d s, reached sha1 p cwd ih d s ->
  map ap_endpoint (ta_peers (sy_actor s)) = found_peers (handled (sy_trace s)) /\
  forall k x, nth_error (ta_peers (sy_actor s)) k = Some x ->
    exists a b, handled (sy_trace s) = a ++ PeerFound (ap_endpoint x) :: b /\ List.length (found_peers a) = k /\
      ap_downloaded x = successes (ap_endpoint x) b /\ ap_failed x = failures (ap_endpoint x) b.
Proof. exact c45. Qed.
Print Assumptions C45_counters.

Example C45_example :
  map (fun x => (ap_downloaded x, ap_failed x)) (firstn 2 (ta_peers (sy_actor (ex_run ex_all)))) = [(2, 1); (0, 0)]%N.
Proof. vm_compute. reflexivity. Qed.

(** C45: a peer that is reported again has its failures forgiven: it gets a second entry. *)
Theorem C45_duplicate_refuted : exists s ep x, reached ex_sha1 Debug [s2b "home"] ex_hash ex_empty s /\
  In x (ta_peers (sy_actor s)) /\ ap_endpoint x = ep /\ ap_failed x = 0%N /\ failures ep (handled (sy_trace s)) = 1%N.
Proof.
  set (ops := ex_begin 11 ++ [OStart; ex_finish []; ex_handle None; OPeer (ex_ep 0); ex_handle None]).
  exists (ex_run ops), (ex_ep 0), (apeer_new (ex_ep 0)). split.
  - exists ops. split; [|reflexivity]. apply Forall_forall. intros o H. destruct o; try exact I.
    assert (E : shuffle = ex_same).
    { cbn in H. repeat (destruct H as [H|H]; [try discriminate; injection H; auto|]). contradiction. }
    rewrite E. intros k0 l. apply Permutation_refl.
  - split; [vm_compute; tauto|]. vm_compute. auto.
Qed.
Print Assumptions C45_duplicate_refuted.

(** C46: as long as all workers live and something is missing, something is in flight. *)
Theorem C46_no_deadlock : forall sha1 p cwd ih d s i n, reached sha1 p cwd ih d s -> requested (sy_trace s) <> [] ->
  ta_info (sy_actor s) = Some i -> pieces_of p i n -> sy_workers s = 5%nat -> ~ Permutation (completed s) (numbers n) ->
  in_flight s <> [].
Proof. exact c46_flight. Qed.
Print Assumptions C46_no_deadlock.

(** C46: and then some part of the program can act. *)
Theorem C46_enabled : forall sha1 p cwd ih d s, reached sha1 p cwd ih d s -> in_flight s <> [] ->
  sy_mail s <> [] \/ sy_working s <> [] \/ (sy_queue s <> [] /\ (List.length (sy_working s) < sy_workers s)%nat).
Proof. exact flight_enabled. Qed.
Print Assumptions C46_enabled.

(** C46: completed pieces stay completed; only a success adds one, and every success does. *)
Theorem C46_monotone : forall sha1 p cwd s o,
  completed (sys_step sha1 p cwd s o) = completed s \/
  exists k found shuffle ep piece idx, o = OHandle k found shuffle /\
    nth_error (sy_mail s) k = Some (PieceDownloadSuccessfull ep piece idx) /\
    completed (sys_step sha1 p cwd s o) = completed s ++ [idx].
Proof. exact completed_step. Qed.
Print Assumptions C46_monotone.
Theorem C46_success : forall sha1 p cwd ih d s k found shuffle ep piece idx, reached sha1 p cwd ih d s ->
  (forall k l, Permutation (shuffle k l) l) ->
  nth_error (sy_mail s) k = Some (PieceDownloadSuccessfull ep piece idx) ->
  completed (sys_step sha1 p cwd s (OHandle k found shuffle)) = completed s ++ [idx].
Proof. exact success_counts. Qed.
Print Assumptions C46_success.

(** C46: a bound on everything the program does: apart from failed downloads and reports of peers,
    each step uses up some of the work left. *)
Theorem C46_bounded_work : forall sha1 p cwd ih d i ops s, reached sha1 p cwd ih d s -> Forall op_ok ops ->
  ta_info (sy_actor s) = Some i -> no_idle_step sha1 p cwd s ops ->
  (lenN ops <= work s + 2 * lenN (peer_reports ops) + 3 * failed_downloads sha1 p cwd s ops)%N.
Proof. exact c46_bound. Qed.
Print Assumptions C46_bounded_work.

(** C46: an execution that has come to rest (nothing can happen but the report of another peer) with
    all workers alive has put every non-empty file right. Together with the bound: every execution
    with finitely many failed downloads either comes to rest like that or loses a worker. *)
Theorem C46_at_rest : forall sha1 p cwd ih d s i files T, reached sha1 p cwd ih d s -> requested (sy_trace s) <> [] ->
  ta_info (sy_actor s) = Some i -> describes sha1 i files T -> disk_ready cwd files d -> sy_workers s = 5%nat ->
  (forall o, op_ok o -> (forall ep, o <> OPeer ep) -> sys_step sha1 p cwd s o = s) ->
  collision sha1 (i_piece_length i) T s \/
  forall k f, nth_error files k = Some f -> (0 < f_length f)%N ->
    sy_disk s (cwd ++ f_path f) = Some (NFile (file_content T files k f)).
Proof. exact c46_stuck. Qed.
Print Assumptions C46_at_rest.

Example C46_rest_example : let s := ex_run (ex_all ++ [OWrite]) in
  requested (sy_trace s) <> [] /\ ta_info (sy_actor s) = Some ex_meta /\ sy_workers s = 5%nat /\
  sy_disk s [s2b "home"; s2b "x"] = Some (NFile ex_data) /\
  forall o, op_ok o -> (forall ep, o <> OPeer ep) -> sys_step ex_sha1 Debug [s2b "home"] s o = s.
Proof.
  intros s. assert (E : sy_mail s = [] /\ sy_queue s = [] /\ sy_working s = [] /\ sy_writer s = []) by (vm_compute; auto).
  split; [vm_compute; discriminate|]. split; [vm_compute; reflexivity|]. split; [vm_compute; reflexivity|]. split; [vm_compute; reflexivity|].
  destruct E as (E1 & E2 & E3 & E4). clearbody s. intros o _ NP. destruct o as [ep|k f sh| |k net pid fuel|]; cbn [sys_step];
    rewrite ?E1, ?E2, ?E3, ?E4.
  - exfalso. apply (NP ep). reflexivity.
  - destruct (sy_dead s); destruct k; reflexivity.
  - reflexivity.
  - destruct k; reflexivity.
  - destruct (sy_writer_dead s); reflexivity.
Qed.

(** C46: from every moment on, if downloads from the reported peers can succeed, all pieces can be completed; then the queue of
    the writer can be emptied and the files are right. *)
Theorem C46_can_finish : forall sha1 p cwd ih d s i n, reached sha1 p cwd ih d s -> requested (sy_trace s) <> [] ->
  ta_info (sy_actor s) = Some i -> pieces_of p i n -> sy_workers s = 5%nat ->
  (forall ep idx, In ep (reported s) -> (idx < n)%N -> exists net pid fuel piece, download sha1 p fuel net pid ep i idx = Ret (Ok piece)) ->
  exists ops, Forall op_ok ops /\ let s' := sys_run sha1 p cwd s ops in Permutation (completed s') (numbers n) /\
    forall files T, describes sha1 i files T -> disk_ready cwd files d ->
      let s'' := sys_run sha1 p cwd s' (repeat OWrite (List.length (sy_writer s'))) in
      collision sha1 (i_piece_length i) T s' \/
      forall k f, nth_error files k = Some f -> (0 < f_length f)%N ->
        sy_disk s'' (cwd ++ f_path f) = Some (NFile (file_content T files k f)).
Proof. exact c46_can_finish. Qed.
Print Assumptions C46_can_finish.

Example C46_example : map (fun k => work (ex_run (firstn k ex_all))) [21; 22; 24; 25; 26; 27; 32]%nat = [9; 8; 6; 8; 7; 6; 1]%N.
Proof. vm_compute. reflexivity. Qed.

(** C46: when all workers have aborted nothing is ever completed again, ... *)
Theorem C46_stall : forall sha1 p cwd ih d s ops, reached sha1 p cwd ih d s -> sy_workers s = 0%nat -> Forall op_ok ops ->
  let s' := sys_run sha1 p cwd s ops in completed s' = completed s /\ in_flight s' = [].
Proof. exact c46_stall. Qed.
Print Assumptions C46_stall.

(** ... which five short messages from one peer bring about while pieces are waiting. *)
Theorem C46_stall_refuted : exists i s, reached ex_sha1 Debug [s2b "home"] ex_hash ex_empty s /\
  ta_info (sy_actor s) = Some i /\ pieces_of Debug i 7 /\ requested (sy_trace s) <> [] /\
  sy_workers s = 0%nat /\ waiting s = [5; 6]%N /\ completed s = [].
Proof.
  set (kill := OFinish 0 (Some (ex_socket (handshake_layout (compute_info_hash ex_sha1 ex_meta7) (repeat 8%N 20) ++ ex_extended ++ frame 1 [] ++ frame 7 [])))
                (repeat 1%N 20) 50).
  set (ops := map (fun k => OPeer (ex_ep (N.of_nat k))) (seq 0 11) ++ ex_handle (Some ex_meta7) :: repeat (ex_handle None) 10
              ++ repeat OStart 5 ++ repeat kill 5).
  exists ex_meta7, (ex_run ops). split.
  - exists ops. split; [|reflexivity]. apply Forall_forall. intros o H. destruct o; try exact I.
    assert (E : shuffle = ex_same).
    { cbn in H. repeat (destruct H as [H|H]; [try discriminate; injection H; auto|]). contradiction. }
    rewrite E. intros k0 l. apply Permutation_refl.
  - split; [vm_compute; reflexivity|]. split; [exists 7%N; vm_compute; auto|]. split; [vm_compute; discriminate|]. vm_compute. auto.
Qed.
Print Assumptions C46_stall_refuted.
