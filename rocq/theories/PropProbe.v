(** PropProbe: property C79 (which peers of an answer are heard of, and what it costs to find out) *)
From Verif Require Import Base Utf8 ModelBencode ModelMessages ModelTorrent ModelWriter ModelTracker ModelStream ModelPeer
  ModelActors ModelCache ModelMain ModelThreads ModelProbe ModelSha1 SpecMessages SpecTorrent SpecSystem SpecLookup SpecMain SpecThreads SpecProbe
  PropPeer PropLookup PropMain PropThreads ProofProbe.

(** C79: a torrent only ever hears of peers, and only ever asks peers for data, whose connection takes no more than 50 milliseconds. *)
Theorem C79_near_only : forall sha1 p cwd d l ops s t x, started sha1 p cwd d ops s -> Forall (under l) ops ->
  nth_error (pr_torrents s) t = Some x ->
  (forall ep, In ep (reported x) -> close_by l ep) /\ (forall r, In r (SpecSystem.requested (sy_trace x)) -> close_by l (rq_endpoint r)).
Proof. exact c79_near. Qed.
Print Assumptions C79_near_only.

(** C79: a torrent all of whose peers are farther away than that never does anything, however many they are and whatever they have. *)
Theorem C79_far_swarm : forall sha1 p cwd d l t ops s, started sha1 p cwd d ops s -> Forall (under l) ops ->
  (forall e, In e (peers_for t (lookups sha1 p cwd (process_init d) ops)) -> far_off l (endpoint e)) ->
  forall x, nth_error (pr_torrents s) t = Some x -> unused x.
Proof. exact far_unused. Qed.
Print Assumptions C79_far_swarm.

(** C79: a tracker's answer has at most 663 peers, whatever arrives. *)
Theorem C79_answer_size : forall e u h es, In u tracker_urls -> lookup e u h = Ret (Ok es) -> (List.length es <= 663)%nat.
Proof. exact answer_size. Qed.
Print Assumptions C79_answer_size.

(** C79: each of them is tried once, so at most 11934 peers are tried for a torrent, in all, and the thread that the interface and all
    trackers share is occupied with it for no more than ten minutes. *)
Theorem C79_tried : forall sha1 p cwd d ops s t, started sha1 p cwd d ops s ->
  (lenN (tried sha1 p cwd t (process_init d) ops) <= 11934)%N.
Proof. exact c79_tried. Qed.
Print Assumptions C79_tried.
Theorem C79_main_time : forall sha1 p cwd d ops s t l, started sha1 p cwd d ops s ->
  (time_for l (tried sha1 p cwd t (process_init d) ops) <= 596700)%N.
Proof. exact c79_time. Qed.
Print Assumptions C79_main_time.

(** C79: peers that do not react take 50 milliseconds each (all peers of an answer are addresses: C20). *)
Theorem C79_unresponsive : forall l es, (forall e, In e es -> parse_socket_addr (endpoint e) <> None) -> (forall a, no_reaction l a) ->
  time_for l es = (50 * lenN es)%N.
Proof. exact c79_unresponsive. Qed.
Print Assumptions C79_unresponsive.

(** C79: and after one answer it is free again once at most 663 peers have been tried. *)
Theorem C79_one_answer : forall sha1 p cwd W d hops s k j, threaded sha1 p cwd W d hops s -> th_main s = Some (k, j) ->
  exists n, (n <= 663)%nat /\ forall cs, List.length cs = S n ->
    exists s', th_run sha1 p cwd W s (map (fun c => HMain (PReport k j c)) cs) = Some s' /\ th_main s' = None.
Proof. exact c79_loop. Qed.
Print Assumptions C79_one_answer.

(** ** A torrent with 663 peers, each of which accepts connections after 51 milliseconds *)
Definition xp_far : latency := fun _ => Accepts 51.
Definition xp_near : latency := fun _ => Accepts 50.
Definition xp_ops (l : latency) (n : nat) : list pop :=
  [PAdd (xm_link (xm_hash (s2b "x") xm_a)) false; PInterface (fun _ => false); PTake 0; PLookup 0 0 (ex_online (repeat (ex_address 0) n))]
  ++ repeat (PReport 0 0 (probe_connects l)) (S n).
Definition xp_run (l : latency) (n : nat) : process := pr_run sha1 Debug xm_cwd (process_init xm_empty) (xp_ops l n).
Lemma xp_started : forall l n, started sha1 Debug xm_cwd xm_empty (xp_ops l n) (xp_run l n).
Proof.
  intros l n. split; [|reflexivity]. apply Forall_app. split; [repeat constructor|]. apply Forall_forall. intros o O. apply repeat_spec in O. subst. exact I.
Qed.
Lemma xp_under : forall l n, Forall (under l) (xp_ops l n).
Proof. intros l n. apply Forall_app. split; [repeat constructor|]. apply Forall_forall. intros o O. apply repeat_spec in O. subst. intros a. reflexivity. Qed.

(** C79: so it is not true that a torrent that has been given reachable peers hears of one of them: here every one of 663 accepts
    connections, each has been tried, that has taken 33 seconds, and the torrent has not heard of any. *)
Theorem C79_reachable_refuted : exists l ops s x, started sha1 Debug xm_cwd xm_empty ops s /\ Forall (under l) ops /\
  nth_error (pr_torrents s) 0 = Some x /\ (forall a, exists ms, l a = Accepts ms) /\
  List.length (tried sha1 Debug xm_cwd 0 (process_init xm_empty) ops) = N.to_nat 663 /\
  (time_for l (tried sha1 Debug xm_cwd 0 (process_init xm_empty) ops) = 33150)%N /\ reported x = [] /\ unused x.
Proof.
  exists xp_far, (xp_ops xp_far (N.to_nat 663)), (xp_run xp_far (N.to_nat 663)).
  assert (V : match nth_error (pr_torrents (xp_run xp_far (N.to_nat 663))) 0 with
              | Some x => (List.length (sy_trace x), List.length (sy_mail x), List.length (sy_queue x), List.length (sy_working x), List.length (sy_writer x),
                           match ta_info (sy_actor x) with None => true | Some _ => false end)
              | None => (1, 1, 1, 1, 1, false)%nat end = (0, 0, 0, 0, 0, true)%nat) by (vm_compute; reflexivity).
  destruct (nth_error (pr_torrents (xp_run xp_far (N.to_nat 663))) 0) as [x|]; [|discriminate V]. injection V as V1 V2 V3 V4 V5 V6.
  apply List.length_zero_iff_nil in V1, V2, V3, V4, V5. exists x.
  split; [apply xp_started|]. split; [apply xp_under|]. split; [reflexivity|]. split; [intros a; exists 51%N; reflexivity|].
  split; [vm_compute; reflexivity|]. split; [vm_compute; reflexivity|]. split; [unfold reported; rewrite V1, V2; reflexivity|].
  unfold unused. destruct (ta_info (sy_actor x)); [discriminate V6|]. repeat split; assumption.
Qed.
Print Assumptions C79_reachable_refuted.

(** One millisecond less, and it hears of all of them. *)
Example C79_example :
  started sha1 Debug xm_cwd xm_empty (xp_ops xp_near 20) (xp_run xp_near 20) /\ Forall (under xp_near) (xp_ops xp_near 20) /\
  map (fun x => List.length (reported x)) (pr_torrents (xp_run xp_near 20)) = [20%nat] /\
  List.length (tried sha1 Debug xm_cwd 0 (process_init xm_empty) (xp_ops xp_near 20)) = 20%nat /\
  time_for xp_near (tried sha1 Debug xm_cwd 0 (process_init xm_empty) (xp_ops xp_near 20)) = 1000%N /\
  map (fun x => List.length (reported x)) (pr_torrents (xp_run xp_far 20)) = [0%nat] /\
  time_for (fun _ => Silent) (tried sha1 Debug xm_cwd 0 (process_init xm_empty) (xp_ops (fun _ => Silent) 20)) = 1000%N /\
  time_for (fun _ => Refuses 3) (tried sha1 Debug xm_cwd 0 (process_init xm_empty) (xp_ops (fun _ => Refuses 3) 20)) = 60%N.
Proof. split; [apply xp_started|]. split; [apply xp_under|]. vm_compute. repeat split. Qed.
