(** ProofProbe: proofs for PropProbe *)
From Coq Require Import Permutation Lia.
From Verif Require Import Base Utf8 ModelBencode ModelMessages ModelTorrent ModelWriter ModelTracker ModelStream ModelPeer
  ModelActors ModelCache ModelMain ModelThreads ModelProbe ProofBase SpecTorrent SpecSystem ProofTorrent ProofPeer ProofSystem SpecMain ProofMain ProofForever
  SpecThreads ProofThreads SpecProbe.

(** ** How many peers an answer can have *)
Lemma chunks_count : forall A k (l : list A), (0 < k)%nat -> (k * List.length (chunks_exact k l) <= List.length l)%nat.
Proof.
  intros A k l K. destruct (List.length (chunks_exact k l)) as [|n] eqn:E; [lia|].
  assert (N : nth_error (chunks_exact k l) n <> None) by (apply nth_error_Some; lia). rewrite chunks_nth in N by exact K.
  destruct (Nat.leb_spec (k * n + k) (List.length l)); [lia|congruence].
Qed.
Lemma endpoints_count : forall cs es, endpoints_of_chunks cs = Ret es -> List.length es = List.length cs.
Proof.
  induction cs as [|c t IH]; intros es H; cbn [endpoints_of_chunks] in H; [injection H as <-; reflexivity|].
  destruct (endpoint_of_chunk c); cbn [obind] in H; try discriminate. destruct (endpoints_of_chunks t) as [l| |]; cbn [obind] in H; try discriminate.
  injection H as <-. cbn [List.length]. rewrite (IH l eq_refl). reflexivity.
Qed.
Lemma answer_size : forall e u h es, In u tracker_urls -> lookup e u h = Ret (Ok es) -> (List.length es <= 663)%nat.
Proof.
  intros e u h es U H.
  assert (S : bytes_eqb (u_scheme u) (s2b "http") = false /\ bytes_eqb (u_scheme u) (s2b "udp") = true).
  { unfold tracker_urls in U. repeat (destruct U as [<-|U]; [split; reflexivity|]). destruct U. }
  destruct S as [S1 S2]. unfold lookup, get_peers_by_tracker in H. rewrite S1, S2 in H.
  destruct (udp_call (le_bound e) (le_connected e) (le_socket e) h (le_pid e) u) as [[r s']| |] eqn:E; cbn [obind] in H; try discriminate.
  destruct r as [b|er]; [|discriminate]. destruct (endpoints_from_bytes b) as [l| |] eqn:EB; cbn [obind] in H; try discriminate. injection H as <-.
  unfold endpoints_from_bytes in EB. apply endpoints_count in EB. rewrite EB. pose proof (chunks_count _ 6 b ltac:(lia)).
  assert (L : (List.length b <= 3980)%nat); [clear H|clear - H L; unfold bytes in *; lia].
  unfold udp_call in E. destruct (negb (le_bound e)); [discriminate|]. destruct (u_host u); [|discriminate]. destruct (u_port u); [|discriminate].
  destruct (negb (le_connected e)); [discriminate|]. destruct (connect_to_tracker udp_transaction_id (le_socket e)) as [[[c|er] s1]| |]; cbn [obind] in E; try discriminate.
  destruct (udp_send s1 _) as [ok s2]. destruct (negb ok); [discriminate|]. unfold udp_recv in E.
  destruct (us_recvs s2) as [|[q|] rest]; cbv beta iota in E; [discriminate| |discriminate].
  pose proof (firstn_le_length 4000 q) as FL. revert E FL. generalize (firstn 4000 q). intros q1 E FL. cbn [obind] in E.
  destruct (26 <? List.length q1)%nat; [|discriminate]. revert E. generalize (fill 4000 q1). intros q2 E. unfold slice in E.
  destruct (_ && _)%bool; cbn [obind] in E; [|discriminate]. apply (f_equal (fun o => match o with Ret (Ok l, _) => List.length l | _ => 0%nat end)) in E. cbv beta iota in E. rewrite <- E.
  rewrite firstn_length. lia.
Qed.

(** ** Every peer of an answer is tried at most once *)
Lemma tried_count : forall sha1 p cwd d ops s o t, started sha1 p cwd d ops s ->
  (List.length (pending t (pr_step sha1 p cwd s o)) + List.length (tried_at t s o)
   <= List.length (pending t s) + List.length (peers_for t (lookup_at s o)))%nat.
Proof.
  intros sha1 p cwd d ops s o t R.
  assert (O : (forall k j c, o <> PReport k j c) -> (List.length (pending t (pr_step sha1 p cwd s o)) + List.length (tried_at t s o)
   <= List.length (pending t s) + List.length (peers_for t (lookup_at s o)))%nat).
  { intros N. pose proof (pending_count sha1 p cwd d ops s o t R). assert (tried_at t s o = []) as ->; [|cbn [List.length]; lia].
    destruct o; try reflexivity. destruct (N k j connects). reflexivity. }
  destruct o as [raw full|full|k|k j e|k j c|u k acc fuel net pid sh|u|u i net pid fuel|u]; try (apply O; discriminate). clear O.
  pose proof (pending_count sha1 p cwd d ops s (PReport k j (fun _ => true)) t R) as PC.
  destruct (nth_error (pr_trackers s) k) as [x|] eqn:E.
  2:{ pose proof (pending_count sha1 p cwd d ops s (PReport k j c) t R). cbn [tried_at]. rewrite E. cbn [List.length]. lia. }
  destruct (pending_one sha1 p cwd s (PReport k j c) t k x E) as (rest & P1 & P2).
  { intros k' x' N. cbn [tracker_after]. rewrite (proj2 (Nat.eqb_neq k' k)) by auto. auto. }
  apply Permutation_length in P1, P2. cbn [tracker_after] in P2. rewrite Nat.eqb_refl in P2. unfold tracker_peers in P1, P2.
  cbn [tried_at]. rewrite E. cbn [lookup_at peers_for flat_map List.length].
  destruct (nth_error (tk_jobs x) j) as [[r|r [|e l]]|] eqn:J.
  - cbn [List.length]. lia.
  - rewrite app_length, (Permutation_length (jobs_perm t _ _ _ J)), app_length in P1.
    cbn [set_jobs tk_jobs] in P2. rewrite app_length in P2. cbn [List.length]. lia.
  - rewrite app_length, (Permutation_length (jobs_perm t _ _ _ J)), app_length in P1.
    cbn [set_jobs tk_jobs] in P2. rewrite app_length, (Permutation_length (jobs_update t _ _ _ (Reporting r l) J)), app_length in P2.
    cbn [job_peers] in P1, P2. destruct (rg_torrent r =? t)%nat; cbn [List.length] in *; lia.
  - cbn [List.length]. lia.
Qed.
Lemma tried_app : forall sha1 p cwd t a b s, tried sha1 p cwd t s (a ++ b) = tried sha1 p cwd t s a ++ tried sha1 p cwd t (pr_run sha1 p cwd s a) b.
Proof. induction a as [|o a IH]; intros b s; cbn [tried app pr_run fold_left]; [reflexivity|]. rewrite IH, app_assoc. reflexivity. Qed.
Lemma tried_bound : forall sha1 p cwd d ops s, started sha1 p cwd d ops s -> forall t,
  (List.length (pending t s) + List.length (tried sha1 p cwd t (process_init d) ops) <= List.length (peers_for t (lookups sha1 p cwd (process_init d) ops)))%nat.
Proof.
  intros sha1 p cwd d. apply (started_ind sha1 p cwd d (fun ops s => forall t,
    (List.length (pending t s) + List.length (tried sha1 p cwd t (process_init d) ops) <= List.length (peers_for t (lookups sha1 p cwd (process_init d) ops)))%nat)).
  - intros t. vm_compute. lia.
  - intros ops s o R OK IH t. rewrite lookups_app, peers_for_app, tried_app, !app_length.
    assert (ES : lookups sha1 p cwd (pr_run sha1 p cwd (process_init d) ops) [o] = lookup_at s o /\ tried sha1 p cwd t (pr_run sha1 p cwd (process_init d) ops) [o] = tried_at t s o).
    { cbn [lookups tried]. rewrite !app_nil_r. destruct R as [_ ->]. split; reflexivity. }
    destruct ES as [-> ->]. pose proof (tried_count sha1 p cwd d ops s o t R). specialize (IH t). lia.
Qed.
Lemma answers_size : forall t l, (forall x, In x l -> (ld_tracker x < List.length tracker_urls)%nat) ->
  (List.length (peers_for t l) <= 663 * List.length (asked_for t l))%nat.
Proof.
  intros t l H. induction l as [|x l IH]; [cbn; lia|]. unfold peers_for, asked_for in *. cbn [flat_map filter]. rewrite app_length.
  assert (IH' := IH (fun y Y => H y (or_intror Y))). destruct (ld_torrent x =? t)%nat; cbn [List.length]; [|lia].
  assert (L : (List.length (answer_peers x) <= 663)%nat); [|lia]. unfold answer_peers.
  destruct (nth_error tracker_urls (ld_tracker x)) as [u|] eqn:U; [|cbn; lia]. apply nth_error_In in U.
  destruct (lookup (ld_env x) u (ld_hash x)) as [[es|er]| |] eqn:E; try (cbn; lia). exact (answer_size _ _ _ _ U E).
Qed.
Lemma c79_tried : forall sha1 p cwd d ops s t, started sha1 p cwd d ops s ->
  (lenN (tried sha1 p cwd t (process_init d) ops) <= 11934)%N.
Proof.
  intros sha1 p cwd d ops s t R. pose proof (tried_bound _ _ _ _ _ _ R t) as B. pose proof (asked_bound _ _ _ _ _ _ t R) as A.
  pose proof (answers_size t (lookups sha1 p cwd (process_init d) ops) (fun x X => proj2 (lookups_known _ _ _ _ _ _ R x X))) as C.
  unfold lenN. change 11934%N with (N.of_nat 18 * N.of_nat 663)%N. lia.
Qed.
Lemma probe_short : forall l ep, (probe_lasts l ep <= 50)%N.
Proof. intros l ep. unfold probe_lasts, PROBE_TIMEOUT. destruct (parse_socket_addr ep); [|lia]. destruct (l p); lia. Qed.
Lemma probe_whole : forall l ep, parse_socket_addr ep <> None -> (forall a, no_reaction l a) -> probe_lasts l ep = 50%N.
Proof.
  intros l ep P H. unfold probe_lasts, PROBE_TIMEOUT. destruct (parse_socket_addr ep) as [a|]; [|congruence]. specialize (H a). unfold no_reaction in H.
  destruct (l a); lia.
Qed.
Lemma c79_time : forall sha1 p cwd d ops s t l, started sha1 p cwd d ops s ->
  (time_for l (tried sha1 p cwd t (process_init d) ops) <= 596700)%N.
Proof.
  intros sha1 p cwd d ops s t l R. pose proof (c79_tried _ _ _ _ _ _ t R) as B.
  assert (T : forall es, (time_for l es <= 50 * lenN es)%N); [|specialize (T (tried sha1 p cwd t (process_init d) ops)); lia].
  induction es as [|e es IH]; [cbn; lia|]. cbn [time_for fold_right]. unfold time_for in IH. pose proof (probe_short l (endpoint e)). unfold lenN in *. cbn [List.length]. lia.
Qed.

(** ** Only peers that are near are reported *)
Lemma near_tried : forall sha1 p cwd d l ops s, started sha1 p cwd d ops s -> Forall (under l) ops -> forall t x ep,
  nth_error (pr_torrents s) t = Some x -> In ep (reported x) -> close_by l ep.
Proof.
  intros sha1 p cwd d l. apply (started_ind sha1 p cwd d (fun ops s => Forall (under l) ops -> forall t x ep,
    nth_error (pr_torrents s) t = Some x -> In ep (reported x) -> close_by l ep)).
  - intros _ t x ep H. destruct t; discriminate.
  - intros ops s o R OK IH F t x' ep H I. apply Forall_app in F as [F FO]. inversion FO as [|? ? U _]. subst. specialize (IH F).
    destruct (torrent_cases sha1 p cwd _ o t x' OK H) as [[E NM]|[(x0 & D & o' & E & O' & -> & NM & _)|(raw & full & h & _ & _ & E & ->)]].
    + exact (IH t x' ep E I).
    + destruct (ProofMain.reported_step sha1 p cwd (set_disk D x0) o') as [RI _]. apply RI in I. rewrite reported_set, NM in I.
      apply in_app_or in I as [I|I]; [exact (IH t x0 ep E I)|].
      destruct o as [raw full|full|k|k j e|k j c|u k acc fuel net pid sh|u|u i net pid fuel|u]; cbn [new_mail] in I; try destruct I.
      destruct (nth_error (pr_trackers s) k) as [y|]; [|destruct I]. destruct (nth_error (tk_jobs y) j) as [[r|r [|e rest]]|]; try destruct I.
      destruct (rg_torrent r =? t)%nat; cbn [andb] in I; [|destruct I]. destruct (is_reachable c (endpoint e)) eqn:RE; [|destruct I].
      destruct I as [<-|[]]. unfold is_reachable in RE. destruct (parse_socket_addr (endpoint e)) as [a|] eqn:PA; [|discriminate].
      cbn [under] in U. rewrite U in RE. unfold probe_connects in RE. destruct (l a) as [ms|ms|] eqn:LA; [|discriminate|discriminate].
      apply N.leb_le in RE. exists a, ms. split; [exact PA|]. split; [exact LA|exact RE].
    + destruct I.
Qed.
Lemma c79_near : forall sha1 p cwd d l ops s t x, started sha1 p cwd d ops s -> Forall (under l) ops -> nth_error (pr_torrents s) t = Some x ->
  (forall ep, In ep (reported x) -> close_by l ep) /\ (forall r, In r (SpecSystem.requested (sy_trace x)) -> close_by l (rq_endpoint r)).
Proof.
  intros sha1 p cwd d l ops s t x R F H. pose proof (fun ep => near_tried _ _ _ _ _ _ _ R F t x ep H) as N. split; [exact N|].
  intros r I. apply N. destruct (c58_alone _ _ _ _ _ _ R t x H) as (h & s0 & _ & R0 & A).
  destruct A as (_ & _ & _ & _ & _ & _ & A). unfold reported. rewrite found_app. apply in_or_app. left.
  first [rewrite <- A|rewrite A]. apply (c44_known _ _ _ _ _ _ _ R0). first [rewrite A|rewrite <- A]; exact I.
Qed.

(** ** A torrent all of whose peers are far off *)
Lemma unused_step : forall sha1 p cwd D x o, unused x -> (forall ep, o <> OPeer ep) -> unused (sys_step sha1 p cwd (set_disk D x) o).
Proof.
  intros sha1 p cwd D x o (T & M & Q & WK & WR & I) N.
  assert (Same : unused (set_disk D x)) by (repeat split; assumption).
  destruct o as [ep|k f sh| |k net pid fuel|]; cbn [sys_step].
  - destruct (N ep eq_refl).
  - destruct (sy_dead (set_disk D x)); [exact Same|]. cbn [set_disk sy_mail]. rewrite M. destruct k; exact Same.
  - cbn [set_disk sy_queue]. rewrite Q. exact Same.
  - cbn [set_disk sy_working]. rewrite WK. destruct k; exact Same.
  - destruct (sy_writer_dead (set_disk D x)); [exact Same|]. cbn [set_disk sy_writer]. rewrite WR. exact Same.
Qed.
Lemma far_unused : forall sha1 p cwd d l t ops s, started sha1 p cwd d ops s -> Forall (under l) ops ->
  (forall e, In e (peers_for t (lookups sha1 p cwd (process_init d) ops)) -> far_off l (endpoint e)) ->
  forall x, nth_error (pr_torrents s) t = Some x -> unused x.
Proof.
  intros sha1 p cwd d l t. apply (started_ind sha1 p cwd d (fun ops s => Forall (under l) ops ->
    (forall e, In e (peers_for t (lookups sha1 p cwd (process_init d) ops)) -> far_off l (endpoint e)) ->
    forall x, nth_error (pr_torrents s) t = Some x -> unused x)).
  - intros _ _ x H. destruct t; discriminate.
  - intros ops s o R OK IH F FAR x' H. pose proof F as F0. apply Forall_app in F as [F FO].
    assert (R1 : started sha1 p cwd d (ops ++ [o]) (pr_step sha1 p cwd s o)).
    { destruct R as [RF ->]. split; [apply Forall_app; split; [exact RF|repeat constructor; exact OK]|rewrite run_app; reflexivity]. }
    assert (FAR0 : forall e, In e (peers_for t (lookups sha1 p cwd (process_init d) ops)) -> far_off l (endpoint e)).
    { intros e I. apply FAR. rewrite lookups_app, peers_for_app. apply in_or_app. left. exact I. }
    specialize (IH F FAR0).
    assert (NR : forall ep, ~ In ep (reported x')).
    { intros ep I. destruct (near_tried _ _ _ _ _ _ _ R1 F0 t x' ep H I) as (a & ms & PA & LA & LE).
      destruct (c56_only _ _ _ _ _ _ _ _ _ R1 H I) as (e & IE & ->). pose proof (FAR e IE a ms PA LA). lia. }
    destruct (torrent_cases sha1 p cwd _ o t x' OK H) as [[E NM]|[(x0 & D & o' & E & O' & -> & NM & _)|(raw & full & h & _ & _ & E & ->)]].
    + exact (IH x' E).
    + apply unused_step; [exact (IH x0 E)|]. intros ep ->. apply (NR ep). unfold reported. cbn [sys_step sy_trace sy_mail]. rewrite !found_app.
      apply in_or_app. right. apply in_or_app. right. left. reflexivity.
    + repeat split; reflexivity.
Qed.

(** ** The loop over one answer *)
Lemma jobs_size : forall sha1 p cwd d ops s, started sha1 p cwd d ops s -> forall k x r rest, nth_error (pr_trackers s) k = Some x ->
  In (Reporting r rest) (tk_jobs x) -> (List.length rest <= 663)%nat.
Proof.
  intros sha1 p cwd d. apply (started_ind sha1 p cwd d (fun ops s => forall k x r rest, nth_error (pr_trackers s) k = Some x ->
    In (Reporting r rest) (tk_jobs x) -> (List.length rest <= 663)%nat)).
  - intros k x r rest H I. exfalso. cbn [process_init pr_trackers] in H. apply nth_error_In, in_map_iff in H as (u & <- & _). destruct I.
  - intros ops s o R OK IH k x' r rest H I. rewrite tracker_nth in H. destruct (nth_error (pr_trackers s) k) as [x|] eqn:E; [|discriminate].
    cbn [option_map] in H. injection H as <-. specialize (IH k x). pose proof (fun r rest I => IH r rest E I) as IH'. clear IH.
    destruct (tracker_facts _ _ _ _ _ _ R) as (_ & HT & _). destruct (HT k x E) as (U & _). apply nth_error_In in U.
    destruct o as [raw full|full|k1|k1 j1 e|k1 j1 c|t k1 acc fuel net pid sh|t|t i net pid fuel|t]; cbn [tracker_after] in I; try exact (IH' r rest I).
    + destruct (pr_interface s); [exact (IH' r rest I)|]. unfold forward in I. destruct (tk_alive x && negb (full k)); exact (IH' r rest I).
    + destruct (k =? k1)%nat; [|exact (IH' r rest I)]. destruct (tk_mail x); [exact (IH' r rest I)|]. cbn [tk_jobs] in I.
      apply in_app_or in I as [I|[I|[]]]; [exact (IH' r rest I)|discriminate].
    + destruct (k =? k1)%nat; [|exact (IH' r rest I)]. destruct (nth_error (tk_jobs x) j1) as [[r1|r1 l1]|]; try exact (IH' r rest I).
      destruct (lookup e (tk_url x) (rg_hash r1)) as [[l|er]| |] eqn:LE; [| | |exact (IH' r rest I)].
      * cbn [set_jobs tk_jobs] in I. apply in_update in I as [I|(y & _ & Y)]; [exact (IH' r rest I)|]. injection Y as <- <-. exact (answer_size _ _ _ _ U LE).
      * cbn [set_jobs tk_jobs] in I. apply in_remove in I. exact (IH' r rest I).
      * destruct I.
    + destruct (k =? k1)%nat; [|exact (IH' r rest I)]. destruct (nth_error (tk_jobs x) j1) as [[r1|r1 [|e1 l1]]|] eqn:J; try exact (IH' r rest I).
      * cbn [set_jobs tk_jobs] in I. apply in_remove in I. exact (IH' r rest I).
      * cbn [set_jobs tk_jobs] in I. apply in_update in I as [I|(y & _ & Y)]; [exact (IH' r rest I)|]. injection Y as <- <-.
        apply nth_error_In in J. pose proof (IH' _ _ J) as X. cbn [List.length] in X. lia.
Qed.
Lemma c79_loop : forall sha1 p cwd W d hops s k j, threaded sha1 p cwd W d hops s -> th_main s = Some (k, j) ->
  exists n, (n <= 663)%nat /\ forall cs, List.length cs = S n ->
    exists s', th_run sha1 p cwd W s (map (fun c => HMain (PReport k j c)) cs) = Some s' /\ th_main s' = None.
Proof.
  intros sha1 p cwd W d hops s k j R M. pose proof (c78_one_answer _ _ _ _ _ _ _ R) as I. pose proof (proj2 (I k j) M) as X. unfold reporting in X.
  destruct (nth_error (pr_trackers (th_pr s)) k) as [x|] eqn:EX; [|discriminate].
  destruct (nth_error (tk_jobs x) j) as [[r|r rest]|] eqn:EJ; try discriminate. exists (List.length rest).
  split; [exact (jobs_size _ _ _ _ _ _ (c78_execution _ _ _ _ _ _ _ R) k x r rest EX (nth_error_In _ _ EJ))|]. intros cs L.
  exact (c78_loop sha1 p cwd W rest cs s k j x r M EX EJ L I).
Qed.
Lemma c79_unresponsive : forall l es, (forall e, In e es -> parse_socket_addr (endpoint e) <> None) -> (forall a, no_reaction l a) ->
  time_for l es = (50 * lenN es)%N.
Proof.
  intros l es P H. induction es as [|e es IH]; [reflexivity|]. cbn [time_for fold_right]. unfold time_for in IH.
  rewrite IH by (intros; apply P; right; assumption). rewrite probe_whole; [|apply P; left; reflexivity|exact H]. unfold lenN. cbn [List.length]. lia.
Qed.
