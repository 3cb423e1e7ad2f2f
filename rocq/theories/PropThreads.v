(** PropThreads: property C78 (what one slow handler keeps from happening) *)
From Coq Require Import Permutation.
From Verif Require Import Base Utf8 ModelBencode ModelMessages ModelTorrent ModelWriter ModelTracker ModelStream ModelPeer
  ModelActors ModelCache ModelMain ModelThreads ModelSha1 SpecMessages SpecTorrent SpecStream SpecWriter SpecPieces SpecPeer SpecSystem SpecSession
  SpecLookup SpecMain SpecVerdict SpecWrites SpecThreads PropPeer PropLookup PropMain ProofThreads.

(** C78: whatever the threads of the program do, the process does what C54-C69, C76 and C77 describe: nothing new happens
    because of the threads. *)
Theorem C78_execution : forall sha1 p cwd W d hops s, threaded sha1 p cwd W d hops s ->
  started sha1 p cwd d (pops sha1 p cwd W (threads_init d) hops) (th_pr s).
Proof. exact c78_execution. Qed.
Print Assumptions C78_execution.

(** C78: a worker thread that is free takes any request and any mail of any of its torrents, provided the peer that may have to be
    asked comes to an end, and that is then exactly a step of the process; the threads for downloads and for writing are never
    in the way of each other, and begin with whatever has been passed on to them. *)
Theorem C78_free_worker : forall sha1 p cwd W s t w x k net pid accept fuel shuffle, lives_on s t w -> th_held s w = None ->
  nth_error (pr_torrents (th_pr s)) t = Some x -> sy_dead x = false -> (k < List.length (sy_mail x))%nat ->
  (forall ep, nth_error (sy_mail x) k = Some (PeerFound ep) -> ta_info (sy_actor x) = None ->
    get_info fuel net pid (ta_info_hash (sy_actor x)) ep <> OutOfFuel) ->
  exists s', th_run sha1 p cwd W s [HBegin t k net pid; HEnd w accept fuel shuffle] = Some s' /\
    th_pr s' = pr_step sha1 p cwd (th_pr s) (PHandle t k accept fuel net pid shuffle) /\ th_home s' = th_home s /\
    th_main s' = th_main s /\ forall v, th_held s' v = th_held s v.
Proof. exact c78_free. Qed.
Print Assumptions C78_free_worker.
Theorem C78_free_request : forall sha1 p cwd W s w raw full, (w < W)%nat -> th_held s w = None ->
  exists s', th_step sha1 p cwd W s (HRequest w raw full) = Some s' /\ th_pr s' = pr_step sha1 p cwd (th_pr s) (PAdd raw full).
Proof. exact c78_request. Qed.
Print Assumptions C78_free_request.
Theorem C78_own_threads : forall sha1 p cwd W s o,
  match o with PStart t => (0 < th_requests s t)%nat | PFinish _ _ _ _ _ => True | PWrite t => (0 < th_pieces s t)%nat | _ => False end ->
  exists s', th_step sha1 p cwd W s (HOwn o) = Some s' /\ th_pr s' = pr_step sha1 p cwd (th_pr s) o.
Proof. exact c78_own. Qed.
Print Assumptions C78_own_threads.

(** C78: what has been passed on is waiting there; the main thread, when it is free, passes on everything that is waiting. *)
Theorem C78_passed_on : forall sha1 p cwd W d hops s t, threaded sha1 p cwd W d hops s ->
  (th_requests s t <= queued (th_pr s) t)%nat /\ (th_pieces s t <= unwritten (th_pr s) t)%nat.
Proof. intros sha1 p cwd W d hops s t R. exact (c78_counted sha1 p cwd W d hops s R t). Qed.
Print Assumptions C78_passed_on.
Theorem C78_passes : forall sha1 p cwd W s t, th_main s = None -> exists s', th_run sha1 p cwd W s [HPass t false; HPass t true] = Some s' /\
  th_pr s' = th_pr s /\ th_home s' = th_home s /\ th_main s' = None /\ th_held s' = th_held s /\
  th_requests s' t = queued (th_pr s) t /\ th_pieces s' t = unwritten (th_pr s) t.
Proof. exact c78_pass. Qed.
Print Assumptions C78_passes.

(** C78: while a worker thread is occupied with one mail of one torrent, nothing else happens on it: no request is answered and no
    other torrent of it moves. *)
Theorem C78_waits : forall sha1 p cwd W d hops s w se hops' s', threaded sha1 p cwd W d hops s -> th_held s w = Some se ->
  th_run sha1 p cwd W s hops' = Some s' -> (forall accept fuel shuffle, ~ In (HEnd w accept fuel shuffle) hops') ->
  th_held s' w = Some se /\ stood_still w s s' /\ forall raw full, ~ In (HRequest w raw full) hops'.
Proof. exact c78_waits. Qed.
Print Assumptions C78_waits.

(** C78: if the peer asked for the description never lets go, that is so forever. *)
Theorem C78_lost_forever : forall sha1 p cwd W d hops s w hops' s', threaded sha1 p cwd W d hops s -> lost s w ->
  th_run sha1 p cwd W s hops' = Some s' ->
  lost s' w /\ stood_still w s s' /\ (forall raw full, ~ In (HRequest w raw full) hops').
Proof. exact c78_never. Qed.
Print Assumptions C78_lost_forever.

(** C78: and if that is so of every worker thread, nothing is left of the client: no request is answered, no torrent is added, and the
    disk stays as it is. *)
Theorem C78_all_lost : forall sha1 p cwd W d hops s hops' s', threaded sha1 p cwd W d hops s -> (forall w, (w < W)%nat -> lost s w) ->
  (forall t x, nth_error (pr_torrents (th_pr s)) t = Some x -> sy_writer x = []) -> th_run sha1 p cwd W s hops' = Some s' ->
  pr_disk (th_pr s') = pr_disk (th_pr s) /\ List.length (pr_torrents (th_pr s')) = List.length (pr_torrents (th_pr s)) /\
  forall w raw full, ~ In (HRequest w raw full) hops'.
Proof. exact c78_all_lost. Qed.
Print Assumptions C78_all_lost.

(** C78: exactly which peers never let go: those that send, while the session goes on, a message that the decoder never finishes, or a
    description that it never finishes. *)
Theorem C78_never_lets_go : forall s pid ih ep, parse_socket_addr ep <> None ->
  let cut := third_write_fails s in
  (forall fuel, get_info fuel (Some s) pid ih ep = OutOfFuel) <->
  (exists c, info_pending ih cut c /\ then_hangs s c) \/
  (exists c d, told_by s c /\ info_ends ih cut c (Received d) /\ info_from_bytes d = OutOfFuel).
Proof. exact c78_when. Qed.
Print Assumptions C78_never_lets_go.

(** C78: the main thread deals with the answers of the trackers one at a time, and it always comes to the end of one. *)
Theorem C78_one_answer : forall sha1 p cwd W d hops s, threaded sha1 p cwd W d hops s ->
  forall k j, reporting (th_pr s) k j = true <-> th_main s = Some (k, j).
Proof. exact c78_one_answer. Qed.
Print Assumptions C78_one_answer.
Theorem C78_main_thread : forall sha1 p cwd W d hops s k j, threaded sha1 p cwd W d hops s -> th_main s = Some (k, j) ->
  exists n, forall cs, List.length cs = n -> exists s', th_run sha1 p cwd W s (map (fun c => HMain (PReport k j c)) cs) = Some s' /\ th_main s' = None.
Proof. exact c78_main_free. Qed.
Print Assumptions C78_main_thread.

(** C78: but until it has come to the end of an answer, whatever the other threads do, nothing is passed on: of all that the torrents ask
    for in the meantime nothing is downloaded, and of all pieces that come in nothing is written. *)
Theorem C78_downloads_wait : forall sha1 p cwd W d hops s k j hops' s', threaded sha1 p cwd W d hops s -> th_main s = Some (k, j) ->
  th_run sha1 p cwd W s hops' = Some s' -> (main_steps hops' <= peers_left (th_pr s) k j)%nat ->
  th_main s' = Some (k, j) /\ forall t, only_passed s s' t.
Proof. exact c78_downloads_wait. Qed.
Print Assumptions C78_downloads_wait.

(** ** Two torrents on one worker thread; a peer of the first one sends thirteen bytes after its handshake. *)
Definition xt_bad (h : bytes) : stream := ex_socket (handshake_layout h xm_pid ++ frame 20 (0%N :: s2b "l-e")).
Definition xt_ask (peers : nat) : list hop :=
  HMain (PLookup 0 0 (ex_online (xm_peers peers))) :: repeat (HMain (PReport 0 0 (fun _ => true))) (S peers).
Definition xt_two : list hop :=
  let hx := xm_hash (s2b "x") xm_a in let hy := xm_hash (s2b "y") xm_b in
  [HRequest 0 (xm_link hx) false; HRequest 0 (xm_link hy) false;
   HMain (PInterface (fun _ => false)); HMain (PInterface (fun _ => false)); HMain (PTake 0); HMain (PTake 0)]
  ++ xt_ask 2 ++ xt_ask 11.
Definition xt_stuck : list hop := xt_two ++ [HBegin 0 0 (Some (xt_bad (xm_hash (s2b "x") xm_a))) xm_pid].
Definition xt_run (W : nat) (hops : list hop) : threads :=
  match th_run sha1 Debug xm_cwd W (threads_init xm_empty) hops with Some s => s | None => threads_init xm_empty end.
Definition xt_ok (W : nat) (hops : list hop) : bool :=
  match th_run sha1 Debug xm_cwd W (threads_init xm_empty) hops with Some _ => true | None => false end.

Lemma xt_threaded : forall W hops, Forall hop_ok hops -> xt_ok W hops = true -> threaded sha1 Debug xm_cwd W xm_empty hops (xt_run W hops).
Proof. intros W hops F H. split; [exact F|]. unfold xt_ok, xt_run in *. destruct (th_run sha1 Debug xm_cwd W (threads_init xm_empty) hops); [reflexivity|discriminate]. Qed.
Lemma xt_start : forall n, threaded sha1 Debug xm_cwd (S n) xm_empty xt_stuck (xt_run (S n) xt_stuck).
Proof. intros n. apply xt_threaded; [repeat constructor|]. vm_compute. reflexivity. Qed.
Lemma xt_lost : forall n, lost (xt_run (S n) xt_stuck) 0.
Proof.
  intros n. destruct (th_held (xt_run (S n) xt_stuck) 0) as [se|] eqn:E; [|exfalso; revert E; vm_compute; discriminate].
  destruct (se_asks se) as [[h ep]|] eqn:A.
  - exists se, h, ep. split; [exact E|]. split; [exact A|]. intros fuel.
    assert (G : match th_held (xt_run (S n) xt_stuck) 0 with
                | Some se => match se_asks se with Some (h, ep) => get_info fuel (se_net se) (se_pid se) h ep | None => Panic end
                | None => Panic end = OutOfFuel) by (vm_compute; reflexivity).
    rewrite E, A in G. exact G.
  - exfalso. assert (G : match th_held (xt_run (S n) xt_stuck) 0 with Some se => match se_asks se with Some _ => true | None => false end | None => true end = true) by (vm_compute; reflexivity).
    rewrite E, A in G. discriminate.
Qed.

(** C78: so torrents are not safe from each other's peers: with any number of worker threads, one peer of one torrent can keep another
    torrent that has eleven reachable peers from ever doing anything, and the requests handed to that thread from being answered. *)
Theorem C78_isolation_refuted : forall n, exists hops s x, threaded sha1 Debug xm_cwd (S n) xm_empty hops s /\
  List.length (pr_torrents (th_pr s)) = 2%nat /\ nth_error (pr_torrents (th_pr s)) 1 = Some x /\
  List.length (reported x) = 11%nat /\
  forall hops' s', th_run sha1 Debug xm_cwd (S n) s hops' = Some s' ->
    (exists x', nth_error (pr_torrents (th_pr s')) 1 = Some x' /\ sy_trace x' = [] /\ ta_info (sy_actor x') = None) /\
    forall raw full, ~ In (HRequest 0 raw full) hops'.
Proof.
  intros n. exists xt_stuck, (xt_run (S n) xt_stuck).
  assert (V : match nth_error (pr_torrents (th_pr (xt_run (S n) xt_stuck))) 1 with
              | Some x => (List.length (reported x), List.length (sy_trace x), match ta_info (sy_actor x) with None => true | Some _ => false end)
              | None => (O, O, false) end = (11%nat, 0%nat, true)) by (vm_compute; reflexivity).
  assert (L : List.length (pr_torrents (th_pr (xt_run (S n) xt_stuck))) = 2%nat) by (vm_compute; reflexivity).
  assert (H : lives_on (xt_run (S n) xt_stuck) 1 0) by (vm_compute; reflexivity).
  destruct (nth_error (pr_torrents (th_pr (xt_run (S n) xt_stuck))) 1) as [x|] eqn:X; [|discriminate V].
  injection V as V1 V2 V3. apply List.length_zero_iff_nil in V2. destruct (ta_info (sy_actor x)) eqn:V4; [discriminate V3|].
  exists x. split; [apply xt_start|]. split; [exact L|]. split; [reflexivity|]. split; [exact V1|]. intros hops' s' R.
  destruct (c78_never _ _ _ _ _ _ _ _ _ _ (xt_start n) (xt_lost n) R) as (_ & [_ SS] & N). split; [|exact N].
  destruct (SS 1%nat x H X) as (x' & X' & A & T & _). exists x'. split; [exact X'|]. rewrite T, A. split; [exact V2|exact V4].
Qed.
Print Assumptions C78_isolation_refuted.

(** C78: on a machine with one processor that is the end of the whole client. *)
Theorem C78_whole_client_refuted : exists hops s, threaded sha1 Debug xm_cwd 1 xm_empty hops s /\ List.length (pr_torrents (th_pr s)) = 2%nat /\
  forall hops' s', th_run sha1 Debug xm_cwd 1 s hops' = Some s' ->
    pr_disk (th_pr s') = xm_empty /\ List.length (pr_torrents (th_pr s')) = 2%nat /\ forall w raw full, ~ In (HRequest w raw full) hops'.
Proof.
  exists xt_stuck, (xt_run 1 xt_stuck). split; [apply xt_start|].
  assert (L : List.length (pr_torrents (th_pr (xt_run 1 xt_stuck))) = 2%nat) by (vm_compute; reflexivity). split; [exact L|]. intros hops' s' R.
  assert (D : pr_disk (th_pr (xt_run 1 xt_stuck)) = xm_empty) by (vm_compute; reflexivity).
  rewrite <- L, <- D. refine (c78_all_lost _ _ _ _ _ _ _ _ _ (xt_start 0) _ _ R).
  - intros w W. destruct w as [|w]; [apply xt_lost|exfalso; apply PeanoNat.Nat.lt_1_r in W; discriminate].
  - intros t x X. assert (A : forallb (fun x => match sy_writer x with [] => true | _ => false end) (pr_torrents (th_pr (xt_run 1 xt_stuck))) = true) by (vm_compute; reflexivity).
    rewrite forallb_forall in A. specialize (A x (nth_error_In _ _ X)). destruct (sy_writer x); [reflexivity|discriminate].
Qed.
Print Assumptions C78_whole_client_refuted.

(** The same two torrents with a peer that answers: the first torrent gets its description, and the second one its mail handled. *)
Definition xt_good : list hop :=
  let meta := enc_info (xm_info (s2b "x") xm_a) in
  xt_two ++ [HBegin 0 0 (Some (info_seed (xm_hash (s2b "x") xm_a) xm_pid (lenN meta) 3 [meta])) xm_pid; HEnd 0 1000 5 xm_same; HBegin 1 0 None xm_pid; HEnd 0 1000 5 xm_same].
Example C78_example : let s := xt_run 1 xt_good in
  threaded sha1 Debug xm_cwd 1 xm_empty xt_good s /\
  map (fun x => (match ta_info (sy_actor x) with Some _ => true | None => false end, List.length (ta_peers (sy_actor x)), List.length (sy_mail x))) (pr_torrents (th_pr s))
  = [(true, 1%nat, 1%nat); (false, 1%nat, 10%nat)] /\
  xt_ok 1 (xt_stuck ++ [HEnd 0 1000 (N.to_nat 5000) xm_same]) = false /\ xt_ok 1 (xt_stuck ++ [HRequest 0 (xm_link (xm_hash (s2b "z") xm_a)) false]) = false /\
  xt_ok 2 (xt_stuck ++ [HRequest 1 (xm_link (xm_hash (s2b "z") xm_a)) false]) = true.
Proof.
  cbv zeta. split; [apply xt_threaded; [repeat constructor; intros ? ?; apply Permutation_refl|vm_compute; reflexivity]|]. vm_compute. repeat split.
Qed.

(** ** Two torrents: the first has its description, eleven peers and five free threads; then a tracker answers for the second one. *)
Definition xt_first : list hop :=
  let hx := xm_hash (s2b "x") xm_a in let hy := xm_hash (s2b "y") xm_b in let meta := enc_info (xm_info (s2b "x") xm_a) in
  [HRequest 0 (xm_link hx) false; HRequest 0 (xm_link hy) false;
   HMain (PInterface (fun _ => false)); HMain (PInterface (fun _ => false)); HMain (PTake 0); HMain (PTake 0)]
  ++ xt_ask 11 ++ [HBegin 0 0 (Some (info_seed hx xm_pid (lenN meta) 3 [meta])) xm_pid; HEnd 0 1000 5 xm_same]
  ++ List.concat (repeat [HBegin 0 0 None xm_pid; HEnd 0 1000 5 xm_same] 9).
Definition xt_last : list hop := [HBegin 0 0 None xm_pid; HEnd 0 1000 5 xm_same].
Definition xt_busy (n : nat) : list hop := xt_first ++ HMain (PLookup 0 0 (ex_online (repeat (ex_address 0) n))) :: xt_last.
Lemma xt_first_ok : Forall hop_ok xt_first.
Proof. repeat constructor; intros ? ?; apply Permutation_refl. Qed.
Lemma xt_busy_ok : forall n, Forall hop_ok (xt_busy n).
Proof. intros n. apply Forall_app. split; [exact xt_first_ok|]. repeat constructor; intros ? ?; apply Permutation_refl. Qed.

Lemma xt_some : forall A (o : option A) (f : A -> bool), match o with Some x => f x | None => false end = true -> exists x, o = Some x /\ f x = true.
Proof. intros A [x|] f H; [exists x; auto|discriminate]. Qed.
Definition xt_idle (x : sys) : bool :=
  (sy_workers x =? 5)%nat && match sy_working x with [] => true | _ => false end && match sy_queue x with [] => false | _ => true end.
Lemma xt_waits : forall m W hops s, threaded sha1 Debug xm_cwd W xm_empty hops s ->
  (th_main s, peers_left (th_pr s) 0 0, th_requests s 0) = (Some (0, 0), m, 0)%nat ->
  match nth_error (pr_torrents (th_pr s)) 0 with Some x => xt_idle x | None => false end = true ->
  exists hops s x, threaded sha1 Debug xm_cwd W xm_empty hops s /\
    nth_error (pr_torrents (th_pr s)) 0 = Some x /\ sy_workers x = 5%nat /\ sy_working x = [] /\ sy_queue x <> [] /\
    forall hops' s', th_run sha1 Debug xm_cwd W s hops' = Some s' -> (main_steps hops' <= m)%nat ->
      exists x', nth_error (pr_torrents (th_pr s')) 0 = Some x' /\ sy_working x' = [].
Proof.
  intros m W hops s R V Y. apply xt_some in Y as (x & X & Y). unfold xt_idle in Y. injection V as V2 V3 V4. exists hops, s, x.
  apply andb_prop in Y as [Y Y3]. apply andb_prop in Y as [Y1 Y2]. apply PeanoNat.Nat.eqb_eq in Y1.
  assert (V6 : sy_working x = []) by (destruct (sy_working x); [reflexivity|discriminate Y2]).
  split; [exact R|]. split; [exact X|]. split; [exact Y1|]. split; [exact V6|].
  split; [intros Q; rewrite Q in Y3; discriminate Y3|]. intros hops' s' H L. rewrite <- V3 in L.
  destruct (c78_downloads_wait _ _ _ _ _ _ _ _ _ _ _ R V2 H L) as [_ P]. destruct (P O x X) as (x' & X' & I & _). exists x'. split; [exact X'|].
  rewrite V4, V6 in I. destruct (sy_working x') as [|r t]; [reflexivity|]. destruct (I r (or_introl eq_refl)) as [[]|[]].
Qed.

(** C78: so it is not true that a torrent with five free threads downloads what it has asked for: here nothing of it begins, whatever
    happens, until 663 peers of the other torrent have been tried. *)
Theorem C78_free_threads_refuted : forall n, exists hops s x, threaded sha1 Debug xm_cwd (S n) xm_empty hops s /\
  nth_error (pr_torrents (th_pr s)) 0 = Some x /\ sy_workers x = 5%nat /\ sy_working x = [] /\ sy_queue x <> [] /\
  forall hops' s', th_run sha1 Debug xm_cwd (S n) s hops' = Some s' -> (main_steps hops' <= N.to_nat 663)%nat ->
    exists x', nth_error (pr_torrents (th_pr s')) 0 = Some x' /\ sy_working x' = [].
Proof.
  intros n. apply (xt_waits (N.to_nat 663) (S n) (xt_busy (N.to_nat 663)) (xt_run (S n) (xt_busy (N.to_nat 663)))).
  - apply xt_threaded; [apply xt_busy_ok|]. vm_compute. reflexivity.
  - vm_compute. reflexivity.
  - vm_compute. reflexivity.
Qed.
Print Assumptions C78_free_threads_refuted.

(** Without the other torrent's answer, and also after its last peer, the requests are passed on and downloads begin. *)
Example C78_passed_example :
  let asked := xt_first ++ xt_last in let began := [HPass 0 false; HOwn (PStart 0); HOwn (PStart 0)] in
  (queued (th_pr (xt_run 1 asked)) 0, th_requests (xt_run 1 asked) 0) = (2, 0)%nat /\
  xt_ok 1 (asked ++ [HOwn (PStart 0)]) = false /\
  map (fun x => List.length (sy_working x)) (pr_torrents (th_pr (xt_run 1 (asked ++ began)))) = [2; 0]%nat /\
  xt_ok 1 (xt_busy 12 ++ [HPass 0 false]) = false /\
  xt_ok 1 (xt_busy 12 ++ repeat (HMain (PReport 0 0 (fun _ => true))) 12 ++ [HPass 0 false]) = false /\
  map (fun x => List.length (sy_working x)) (pr_torrents (th_pr (xt_run 1 (xt_busy 12 ++ repeat (HMain (PReport 0 0 (fun _ => true))) 13 ++ began)))) = [2; 0]%nat.
Proof. vm_compute. repeat split. Qed.
