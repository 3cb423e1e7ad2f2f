(** ProofSystem: lemmas for C39-C46 *)
From Coq Require Import Permutation Lia.
From Verif Require Import Base ModelTorrent ModelStream ModelPeer ModelWriter ModelActors SpecTorrent SpecWriter SpecPieces SpecSystem ProofTorrent
  ProofBase ProofWriter ProofPieces ProofPeer.

Notation cnt := (count_occ N.eq_dec).

Lemma perm_cnt : forall l l', Permutation l l' <-> forall x, cnt l x = cnt l' x.
Proof. intros l l'. apply (Permutation_count_occ N.eq_dec). Qed.

Lemma cnt_app : forall l1 l2 x, cnt (l1 ++ l2) x = (cnt l1 x + cnt l2 x)%nat.
Proof. intros. apply count_occ_app. Qed.

Lemma cnt_cons : forall a l x, cnt (a :: l) x = (cnt [a] x + cnt l x)%nat.
Proof. intros. change (a :: l) with ([a] ++ l). apply cnt_app. Qed.

Lemma remove_nth_perm : forall A k (l : list A) x, nth_error l k = Some x -> Permutation l (x :: remove_nth k l).
Proof.
  induction k as [|k IH]; intros [|y l] x H; try discriminate; cbn in *.
  - injection H as ->. auto.
  - apply IH in H. etransitivity; [apply perm_skip, H|]. apply perm_swap.
Qed.


Lemma to_writer_sent : forall m es, to_writer (Handled m :: map Sent es) = readies_of es.
Proof.
  intros m es. unfold to_writer, readies_of. cbn [flat_map app]. induction es as [|e es IH]; [auto|].
  cbn [map flat_map]. rewrite IH. destruct e; auto.
Qed.
Lemma requested_sent : forall m es, requested (Handled m :: map Sent es) = requests_of es.
Proof.
  intros m es. unfold requested, requests_of. cbn [flat_map app]. induction es as [|e es IH]; [auto|].
  cbn [map flat_map]. rewrite IH. destruct e; auto.
Qed.
Lemma handled_sent : forall m es, handled (Handled m :: map Sent es) = [m].
Proof. intros m es. unfold handled. cbn [flat_map app]. f_equal. induction es as [|e es IH]; [auto|]. cbn. auto. Qed.

(** ** Peers *)

Lemma find_found : forall A (f : A -> bool) l x, find f l = Some x -> In x l /\ f x = true.
Proof. intros. apply find_some. auto. Qed.

Lemma find_suitable_total : forall l, l <> [] -> exists x, In x l /\ find_suitable_peer l = Ret (ap_endpoint x).
Proof.
  intros l H. unfold find_suitable_peer.
  destruct (find (fun x => (ap_failed x <? 2)%N) l) as [x|] eqn:A; [exists x; apply find_found in A; tauto|].
  destruct (find (fun x => (ap_failed x <? 4)%N) l) as [x|] eqn:B; [exists x; apply find_found in B; tauto|].
  destruct l as [|x l]; [congruence|]. exists x. cbn; auto.
Qed.

Lemma suitable_nonempty : forall (sh : list apeer -> list apeer) l, Permutation (sh l) l -> l <> [] ->
  exists ep, find_suitable_peer (sh l) = Ret ep /\ exists x, In x l /\ ap_endpoint x = ep.
Proof.
  intros sh l P H. assert (N : sh l <> []) by (intros E; rewrite E in P; apply Permutation_nil in P; auto).
  destruct (find_suitable_total _ N) as (x & I & E). exists (ap_endpoint x). split; [auto|]. exists x. split; [|auto].
  eapply Permutation_in; eauto.
Qed.

Lemma initial_spec : forall rounds k shuffle i peers q ini, (forall k l, Permutation (shuffle k l) l) -> peers <> [] ->
  exists es, initial_requests rounds k shuffle i peers q ini
    = Ret (skipn rounds q, match firstn rounds q with [] => ini | _ => true end, es) /\
    readies_of es = [] /\ map rq_idx (requests_of es) = firstn rounds q /\
    Forall (fun r => rq_info r = i /\ exists x, In x peers /\ ap_endpoint x = rq_endpoint r) (requests_of es).
Proof.
  induction rounds as [|r IH]; intros k shuffle i peers q ini P N.
  - exists []. cbn. repeat split; auto.
  - cbn [initial_requests]. destruct (suitable_nonempty (shuffle k) peers (P k peers) N) as (ep & -> & Hep). cbn [obind].
    destruct q as [|x q]; cbn [pool_pop].
    + destruct (IH (S k) shuffle i peers [] ini P N) as (es & E & R & Q & F). exists es. rewrite E.
      rewrite firstn_nil, skipn_nil in *. auto.
    + destruct (IH (S k) shuffle i peers q true P N) as (es & E & R & Q & F). rewrite E. cbn [obind].
      eexists. cbn [firstn skipn]. split; [destruct (firstn r q); reflexivity|].
      cbn [readies_of requests_of flat_map app map]. fold (readies_of es) (requests_of es).
      split; [auto|]. split; [cbn; f_equal; auto|]. constructor; auto.
Qed.

(** ** The invariant *)

Definition good_ready (sha1 : bytes -> bytes) (i : info) (files : list file) (n : N) (r : piece_ready) : Prop :=
  rd_files r = files /\ rd_piece_length r = i_piece_length i /\ (rd_idx r < n)%N /\
  sha1 (rd_piece r) = firstn 20 (skipn (20 * N.to_nat (rd_idx r)) (i_pieces i)).
Definition good_mail (sha1 : bytes -> bytes) (i : info) (m : tmsg) : Prop :=
  match m with
  | PieceDownloadSuccessfull _ piece idx => sha1 piece = firstn 20 (skipn (20 * N.to_nat idx) (i_pieces i))
  | _ => True
  end.

Definition inv (sha1 : bytes -> bytes) (p : profile) (d0 : fs) (s : sys) : Prop :=
  match ta_info (sy_actor s) with
  | None =>
    ta_pool (sy_actor s) = None /\ ta_initiated (sy_actor s) = false /\ sy_queue s = [] /\ sy_working s = [] /\
    flat_map answer_for (sy_mail s) = [] /\ to_writer (sy_trace s) = [] /\ requested (sy_trace s) = [] /\
    sy_writer s = [] /\ sy_workers s = 5%nat /\
    sy_disk s = d0 /\ sy_writer_dead s = false
  | Some i =>
    sy_dead s = false /\ (sy_workers s <= 5)%nat /\
    exists n files q lost, pieces_of p i n /\ get_files i = Ok files /\ ta_pool (sy_actor s) = Some q /\
      Permutation (q ++ in_flight s ++ completed s ++ lost) (numbers n) /\
      (List.length lost + sy_workers s = 5)%nat /\
      (ta_initiated (sy_actor s) = false -> in_flight s = [] /\ completed s = [] /\ lost = [] /\ requested (sy_trace s) = []) /\
      (ta_initiated (sy_actor s) = true -> (10 < lenN (ta_peers (sy_actor s)))%N /\
         (List.length (in_flight s) + List.length lost <= 5)%nat /\
         ((List.length (in_flight s) + List.length lost < 5)%nat -> q = [])) /\
      Forall (fun r => rq_info r = i) (sy_queue s ++ sy_working s) /\
      Forall (good_mail sha1 i) (sy_mail s) /\
      Forall (good_ready sha1 i files n) (to_writer (sy_trace s)) /\
      Forall (fun r => rq_info r = i) (requested (sy_trace s))
  end.

Lemma inv_init : forall sha1 p ih d, inv sha1 p d (sys_init ih d).
Proof. intros. unfold inv. cbn. repeat split; auto. Qed.

Lemma in_numbers : forall n x, In x (numbers n) <-> (x < n)%N.
Proof.
  intros n x. unfold numbers. rewrite in_map_iff. split.
  - intros (k & <- & H). apply in_seq in H. lia.
  - intros H. exists (N.to_nat x). split; [lia|]. apply in_seq. lia.
Qed.
Lemma numbers_nodup : forall n, NoDup (numbers n).
Proof.
  intros n. unfold numbers. apply FinFun.Injective_map_NoDup; [|apply seq_NoDup]. intros a b H. lia.
Qed.

Lemma in_flight_len : forall s, List.length (in_flight s)
  = (List.length (sy_queue s) + List.length (sy_working s) + List.length (flat_map answer_for (sy_mail s)))%nat.
Proof. intros. unfold in_flight. rewrite !app_length, !map_length. lia. Qed.

Lemma cnt_in_flight : forall s x, cnt (in_flight s) x
  = (cnt (map rq_idx (sy_queue s)) x + cnt (map rq_idx (sy_working s)) x + cnt (flat_map answer_for (sy_mail s)) x)%nat.
Proof. intros. unfold in_flight. rewrite !cnt_app. lia. Qed.

Lemma mail_removed : forall k l m, nth_error l k = Some m -> forall x,
  cnt (flat_map answer_for l) x = (cnt (answer_for m) x + cnt (flat_map answer_for (remove_nth k l)) x)%nat.
Proof.
  intros k l m H x. apply remove_nth_perm in H. apply (Permutation_flat_map answer_for) in H.
  pose proof (proj1 (perm_cnt _ _) H x) as E. rewrite E. cbn [flat_map]. apply cnt_app.
Qed.
Lemma mail_removed_len : forall k l m, nth_error l k = Some m ->
  List.length (flat_map answer_for l) = (List.length (answer_for m) + List.length (flat_map answer_for (remove_nth k l)))%nat.
Proof.
  intros k l m H. apply remove_nth_perm in H. apply (Permutation_flat_map answer_for) in H.
  apply Permutation_length in H. cbn [flat_map] in H. now rewrite app_length in H.
Qed.
Lemma Forall_removed : forall A (P : A -> Prop) k l, Forall P l -> Forall P (remove_nth k l).
Proof.
  induction k as [|k IH]; intros [|x l] H; cbn; auto; inversion H; subst; auto.
Qed.
Lemma map_removed : forall k (l : list piece_requested) r, nth_error l k = Some r -> forall x,
  cnt (map rq_idx l) x = (cnt [rq_idx r] x + cnt (map rq_idx (remove_nth k l)) x)%nat.
Proof.
  intros k l r H x. apply remove_nth_perm in H. apply (Permutation_map rq_idx) in H.
  pose proof (proj1 (perm_cnt _ _) H x) as E. rewrite E. cbn [map]. apply cnt_cons.
Qed.
Lemma removed_len : forall A k (l : list A) r, nth_error l k = Some r -> List.length l = S (List.length (remove_nth k l)).
Proof. intros A k l r H. apply remove_nth_perm in H. apply Permutation_length in H. auto. Qed.

Lemma step_by_inv : forall total plen n, step_by_len total plen = Ret n -> (0 < plen)%N /\ n = piece_count total plen.
Proof.
  intros total plen n H. assert (P : (0 < plen)%N).
  { unfold step_by_len in H. destruct (N.eqb_spec plen 0); [discriminate|lia]. }
  rewrite step_by_count in H by auto. split; congruence.
Qed.

(** ** The invariant is kept *)

Lemma answers_initiated : forall sha1 p d0 s i k m, inv sha1 p d0 s -> ta_info (sy_actor s) = Some i ->
  nth_error (sy_mail s) k = Some m -> answer_for m <> [] -> ta_initiated (sy_actor s) = true.
Proof.
  intros sha1 p d0 s i k m I E H A. unfold inv in I. rewrite E in I.
  destruct I as (_ & _ & n & files & q & lost & _ & _ & _ & _ & _ & NI & _).
  destruct (ta_initiated (sy_actor s)); [auto|]. destruct (NI eq_refl) as (F & _).
  exfalso. assert (L : List.length (in_flight s) = 0%nat) by (rewrite F; auto).
  rewrite in_flight_len in L. rewrite (mail_removed_len _ _ _ H) in L. destruct (answer_for m); [auto|cbn in L; lia].
Qed.

Lemma flat_map_remove_nil : forall k l, flat_map answer_for l = [] -> flat_map answer_for (remove_nth k l) = [].
Proof.
  induction k as [|k IH]; intros [|m l] H; cbn in *; auto; apply app_eq_nil in H as [A B]; auto. rewrite A, IH; auto.
Qed.

Lemma cnt_map_app : forall (l1 l2 : list piece_requested) x, cnt (map rq_idx (l1 ++ l2)) x = (cnt (map rq_idx l1) x + cnt (map rq_idx l2) x)%nat.
Proof. intros. rewrite map_app. apply cnt_app. Qed.

Lemma inv_handle : forall sha1 p d0 cwd s k found shuffle, inv sha1 p d0 s -> (forall k l, Permutation (shuffle k l) l) ->
  inv sha1 p d0 (sys_step sha1 p cwd s (OHandle k found shuffle)).
Proof.
  intros sha1 p d0 cwd s k found shuffle I SH. cbn [sys_step].
  destruct (sy_dead s) eqn:D; [auto|]. destruct (nth_error (sy_mail s) k) as [m|] eqn:Hm; [|auto].
  destruct (ta_info (sy_actor s)) as [i|] eqn:EI.
  - (* metadata known *)
    pose proof (answers_initiated sha1 p d0 s i k m I EI Hm) as AI.
    assert (I0 := I). unfold inv in I0. rewrite EI in I0.
    destruct I0 as (_ & W5 & n & files & q & lost & PO & GF & EP & PM & LW & NI & II & FQ & FM & FR & FT).
    pose proof (mail_removed _ _ _ Hm) as MR. pose proof (mail_removed_len _ _ _ Hm) as ML.
    assert (GM : good_mail sha1 i m) by (rewrite Forall_forall in FM; apply FM; eapply nth_error_In; eauto).
    assert (P := proj1 (perm_cnt _ _) PM).
    destruct m as [ep|ep piece idx|ep idx]; cbn [handle answer_for] in *.
    + (* peer found *)
      unfold handle_peer_found. rewrite EI.
      destruct ((10 <? lenN (ta_peers (sy_actor s) ++ [apeer_new ep]))%N && negb (ta_initiated (sy_actor s))) eqn:C.
      * apply andb_true_iff in C as [C1 C2]. apply N.ltb_lt in C1. apply negb_true_iff in C2. rewrite C2 in *.
        destruct (NI eq_refl) as (F0 & C0 & L0 & Q0). subst lost. rewrite EP. cbn [unwrap obind].
        destruct (initial_spec 5 0 shuffle i (ta_peers (sy_actor s) ++ [apeer_new ep]) q false SH) as (es & -> & RE & RQ & RF);
          [intros X; apply app_eq_nil in X as [_ X]; discriminate|]. cbn [obind].
        unfold inv. cbn [sy_actor ta_info sy_dead sy_workers ta_pool ta_initiated ta_peers sy_queue sy_working sy_mail sy_trace].
        split; [auto|]. split; [auto|]. exists n, files, (skipn 5 q), []. split; [auto|]. split; [auto|]. split; [auto|].
        assert (LF : List.length (in_flight s) = 0%nat) by (rewrite F0; auto). rewrite in_flight_len in LF.
        assert (Q : sy_queue s = []) by (destruct (sy_queue s); [auto|cbn in LF; lia]).
        assert (WK : sy_working s = []) by (destruct (sy_working s); [auto|cbn in LF; lia]).
        assert (MM : flat_map answer_for (remove_nth k (sy_mail s)) = []).
        { destruct (flat_map answer_for (remove_nth k (sy_mail s))); [auto|cbn in *; lia]. }
        unfold completed, in_flight. cbn [sy_queue sy_working sy_mail sy_trace].
        unfold completed in C0. apply map_eq_nil in C0.
        unfold to_writer, requested. rewrite !flat_map_app.
        fold (to_writer (sy_trace s)) (requested (sy_trace s)).
        fold (to_writer (Handled (PeerFound ep) :: map Sent es)) (requested (Handled (PeerFound ep) :: map Sent es)).
        rewrite C0, Q0, to_writer_sent, requested_sent, RE, Q, WK, MM. cbn [app map]. rewrite !app_nil_r, RQ.
        split.
        { apply perm_cnt. intros x. rewrite <- P. rewrite F0. unfold completed. rewrite C0. cbn [map app]. rewrite !app_nil_r.
          rewrite cnt_app. rewrite <- (firstn_skipn 5 q) at 3. rewrite cnt_app. lia. }
        split; [auto|].
        split.
        { intros N. destruct (firstn 5 q) as [|y t] eqn:F5; [|discriminate]. repeat split; auto. apply map_eq_nil in RQ. auto. }
        split.
        { intros _. split; [auto|]. rewrite firstn_length. cbn [List.length]. split; [lia|]. intros L.
          apply skipn_all2. lia. }
        split; [eapply Forall_impl; [|exact RF]; cbn; tauto|].
        split; [apply Forall_removed; auto|]. split; [constructor|].
        eapply Forall_impl; [|exact RF]; cbn; tauto.
      * unfold inv. cbn [sy_actor ta_info sy_dead sy_workers ta_pool ta_initiated ta_peers sy_queue sy_working sy_mail sy_trace].
        split; [auto|]. split; [auto|]. exists n, files, q, lost. split; [auto|]. split; [auto|]. split; [auto|].
        unfold completed. cbn [sy_trace].
        unfold to_writer, requested. rewrite !flat_map_app. cbn [flat_map map app readies_of requests_of]. rewrite !app_nil_r.
        fold (to_writer (sy_trace s)) (requested (sy_trace s)). fold (completed s).
        match goal with |- context [in_flight ?st] =>
          assert (LI : List.length (in_flight st) = List.length (in_flight s));
          [rewrite !in_flight_len; cbn [sy_queue sy_working sy_mail]; rewrite ?app_nil_r, ML; cbn; lia|];
          assert (CI : forall x, cnt (in_flight st) x = cnt (in_flight s) x);
          [intros x; rewrite !cnt_in_flight; cbn [sy_queue sy_working sy_mail]; rewrite ?app_nil_r, MR; cbn; lia|]
        end.
        split. { apply perm_cnt. intros x. rewrite <- P. rewrite !cnt_app, CI. lia. }
        split; [auto|]. split.
        { intros N. destruct (NI N) as (F0 & C0 & L0 & Q0). repeat split; auto.
          apply length_zero_iff_nil. rewrite LI, F0. auto. }
        split.
        { intros N. destruct (II N) as (A & B & C'). rewrite LI. split; [|split; auto].
          unfold lenN in *. rewrite app_length. cbn. lia. }
        split; [auto|]. split; [apply Forall_removed; auto|]. auto.
    + (* success *)
      specialize (AI ltac:(discriminate)). destruct (II AI) as (PE & L5 & EMP).
      unfold handle_success. rewrite EI. cbn [unwrap obind]. rewrite GF. cbn [unwrap_res obind]. rewrite EP. cbn [unwrap obind].
      assert (IX : (idx < n)%N).
      { apply in_numbers. apply (Permutation_in _ PM). apply in_or_app. right. apply in_or_app. left.
        unfold in_flight. apply in_or_app. right. apply in_or_app. right. apply in_flat_map.
        eexists. split; [eapply nth_error_In; eauto|]. cbn. auto. }
      destruct q as [|y q]; cbn [pool_pop].
      * unfold inv. cbn [sy_actor ta_info sy_dead sy_workers ta_pool ta_initiated ta_peers sy_queue sy_working sy_mail sy_trace].
        rewrite ?EI. split; [auto|]. split; [auto|]. exists n, files, [], lost. split; [auto|]. split; [auto|]. split; [auto|].
        unfold completed. cbn [sy_trace].
        unfold to_writer, requested. rewrite !flat_map_app. cbn [flat_map map app readies_of requests_of]. rewrite !app_nil_r.
        fold (to_writer (sy_trace s)) (requested (sy_trace s)). rewrite map_app. fold (completed s). cbn [map rd_idx].
        rewrite in_flight_len in L5, EMP. rewrite in_flight_len. cbn [sy_queue sy_working sy_mail]. rewrite ML in *. cbn [List.length] in *.
        split. { apply perm_cnt. intros x. rewrite <- P. rewrite !cnt_app, !cnt_in_flight. cbn [sy_queue sy_working sy_mail app].
          rewrite MR. change (cnt [] x) with 0%nat. lia. }
        split; [auto|]. split; [congruence|].
        split. { intros _. split; [|split; [lia|auto]]. unfold update_success, lenN in *. rewrite map_length. auto. }
        split; [auto|]. split; [apply Forall_removed; auto|]. split; [|auto].
        apply Forall_app. split; [auto|]. constructor; [|constructor]. unfold good_ready. cbn. auto.
      * unfold inv. cbn [sy_actor ta_info sy_dead sy_workers ta_pool ta_initiated ta_peers sy_queue sy_working sy_mail sy_trace].
        rewrite ?EI. split; [auto|]. split; [auto|]. exists n, files, q, lost. split; [auto|]. split; [auto|]. split; [auto|].
        unfold completed. cbn [sy_trace].
        unfold to_writer, requested. rewrite !flat_map_app. cbn [flat_map map app readies_of requests_of].
        fold (to_writer (sy_trace s)) (requested (sy_trace s)). rewrite map_app. fold (completed s). cbn [map rd_idx].
        rewrite in_flight_len in L5, EMP. rewrite in_flight_len. cbn [sy_queue sy_working sy_mail]. rewrite ML in *. rewrite app_length. cbn [List.length] in *.
        split. { apply perm_cnt. intros x. rewrite <- P. rewrite !cnt_app, !cnt_in_flight. cbn [sy_queue sy_working sy_mail].
          rewrite cnt_map_app, MR. cbn [map rq_idx]. rewrite (cnt_cons y q). lia. }
        split; [auto|]. split; [congruence|].
        split. { intros _. split; [|split; [lia|]]. { unfold update_success, lenN in *. rewrite map_length. auto. }
          intros L. discriminate EMP. lia. }
        rewrite !Forall_app in *. destruct FQ as [FQ1 FQ2].
        split; [repeat split; auto|]. split; [apply Forall_removed; auto|].
        split; [split; auto; constructor; [|constructor]; unfold good_ready; cbn; auto|]. split; auto.
    + (* failure *)
      specialize (AI ltac:(discriminate)). destruct (II AI) as (PE & L5 & EMP).
      unfold handle_failed. rewrite EP. cbn [unwrap obind].
      destruct (suitable_nonempty (shuffle 0%nat) (update_failed (ta_peers (sy_actor s)) ep) (SH _ _)) as (ep' & -> & _).
      { unfold update_failed. intros X. apply map_eq_nil in X. rewrite X in PE. cbn in PE. lia. }
      cbn [obind]. unfold pool_insert.
      destruct (q ++ [idx]) as [|y q'] eqn:EQ; [destruct q; discriminate|]. cbn [pool_pop]. rewrite EI. cbn [unwrap obind].
      unfold inv. cbn [sy_actor ta_info sy_dead sy_workers ta_pool ta_initiated ta_peers sy_queue sy_working sy_mail sy_trace].
      split; [auto|]. split; [auto|]. exists n, files, q', lost. split; [auto|]. split; [auto|]. split; [auto|].
      unfold completed. cbn [sy_trace].
      unfold to_writer, requested. rewrite !flat_map_app. cbn [flat_map map app readies_of requests_of]. rewrite !app_nil_r.
      fold (to_writer (sy_trace s)) (requested (sy_trace s)). fold (completed s).
      rewrite in_flight_len in L5, EMP. rewrite in_flight_len. cbn [sy_queue sy_working sy_mail]. rewrite ML in *. rewrite app_length. cbn [List.length] in *.
      split. { apply perm_cnt. intros x. rewrite <- P. rewrite !cnt_app, !cnt_in_flight. cbn [sy_queue sy_working sy_mail].
        rewrite cnt_map_app, MR. cbn [map rq_idx].
        pose proof (f_equal (fun l => cnt l x) EQ) as EQ'. cbn beta in EQ'. rewrite cnt_app, (cnt_cons y q') in EQ'. lia. }
      split; [auto|]. split; [congruence|].
      split. { intros _. split; [|split; [lia|]]. { unfold update_failed, lenN in *. rewrite map_length. auto. }
        intros L. rewrite (EMP ltac:(lia)) in EQ. cbn in EQ. congruence. }
      rewrite !Forall_app in *. destruct FQ as [FQ1 FQ2].
      split; [repeat split; auto|]. split; [apply Forall_removed; auto|]. split; auto.
  - (* metadata not known *)
    assert (I0 := I). unfold inv in I0. rewrite EI in I0. destruct I0 as (E1 & E2 & E3 & E4 & E5 & E6 & E6' & E7 & E8 & E9 & E10).
    assert (A0 : answer_for m = []).
    { destruct (answer_for m) eqn:A; [auto|]. pose proof (mail_removed_len _ _ _ Hm) as ML. rewrite E5, A in ML. cbn in ML. lia. }
    destruct m as [ep|ep piece idx|ep idx]; try discriminate. cbn [handle]. unfold handle_peer_found. rewrite EI.
    pose proof (flat_map_remove_nil k _ E5) as RN.
    destruct found as [[i|]| |]; cbn [obind].
    + destruct (get_total_length p i) as [total| |] eqn:ET; cbn [obind];
        [|unfold inv; cbn [sy_actor sy_queue sy_working sy_mail sy_trace sy_writer sy_workers sy_disk sy_writer_dead]; rewrite EI; repeat split; auto|auto].
      destruct (step_by_len total (get_piece_length i)) as [n| |] eqn:EN; cbn [obind];
        [|unfold inv; cbn [sy_actor sy_queue sy_working sy_mail sy_trace sy_writer sy_workers sy_disk sy_writer_dead]; rewrite EI; repeat split; auto|auto].
      apply step_by_inv in EN as [PP EN].
      assert (GF : exists files, get_files i = Ok files).
      { unfold get_files, get_total_length in *. destruct (i_files i); [eauto|]. destruct (i_length i); [eauto|discriminate]. }
      destruct GF as [files GF].
      unfold inv. cbn [sy_actor ta_info sy_dead sy_workers ta_pool ta_initiated ta_peers sy_queue sy_working sy_mail sy_trace].
      split; [auto|]. split; [lia|]. exists n, files, (pool_new n), [].
      unfold completed, in_flight. cbn [sy_queue sy_working sy_mail sy_trace].
      unfold to_writer, requested. rewrite !flat_map_app. cbn [flat_map map app readies_of requests_of].
      fold (to_writer (sy_trace s)) (requested (sy_trace s)). rewrite E3, E4, E6, E6', E8, RN. cbn [map app]. rewrite !app_nil_r.
      split; [exists total; auto|]. split; [auto|]. split; [auto|]. split; [reflexivity|].
      split; [auto|]. split; [auto|]. split; [congruence|]. split; [constructor|]. split; [|split; constructor].
      apply Forall_forall. intros m Hm'. assert (In m (sy_mail s)).
      { apply remove_nth_perm in Hm. eapply Permutation_in; [symmetry; exact Hm|]. right; auto. }
      destruct m as [|? ? idx|]; cbn; auto. exfalso.
      assert (In idx (flat_map answer_for (sy_mail s))) by (apply in_flat_map; eexists; split; eauto; cbn; auto).
      rewrite E5 in H0. contradiction.
    + unfold inv. cbn [sy_actor ta_info ta_pool ta_initiated sy_queue sy_working sy_mail sy_trace sy_writer sy_workers sy_disk sy_writer_dead].
      unfold to_writer, requested. rewrite !flat_map_app. cbn [flat_map map app readies_of requests_of].
      fold (to_writer (sy_trace s)) (requested (sy_trace s)). rewrite E3, E6, E6', E7. repeat split; auto.
    + unfold inv; cbn [sy_actor sy_queue sy_working sy_mail sy_trace sy_writer sy_workers sy_disk sy_writer_dead]; rewrite EI; repeat split; auto.
    + auto.
Qed.


(** A step that leaves actor and trace alone. *)
Lemma inv_move : forall sha1 p d0 s s' lost',
  inv sha1 p d0 s -> sy_actor s' = sy_actor s -> sy_dead s' = sy_dead s -> sy_trace s' = sy_trace s ->
  sy_writer s' = sy_writer s -> sy_writer_dead s' = sy_writer_dead s -> sy_disk s' = sy_disk s ->
  (forall x, cnt (in_flight s') x + cnt lost' x = cnt (in_flight s) x)%nat ->
  (List.length (in_flight s') + List.length lost' = List.length (in_flight s))%nat ->
  (List.length lost' + sy_workers s' = sy_workers s)%nat ->
  (forall i, Forall (fun r => rq_info r = i) (sy_queue s ++ sy_working s) ->
     Forall (fun r => rq_info r = i) (sy_queue s' ++ sy_working s')) ->
  (forall i, Forall (good_mail sha1 i) (sy_mail s) -> Forall (fun r => rq_info r = i) (sy_queue s ++ sy_working s) ->
     Forall (good_mail sha1 i) (sy_mail s')) ->
  inv sha1 p d0 s'.
Proof.
  intros sha1 p d0 s s' lost' I EA ED ET EW EWD EK CF LF LL FQ FM. unfold inv in *. rewrite EA, ED, ET, EW, EWD, EK.
  destruct (ta_info (sy_actor s)) as [i|].
  - destruct I as (D & W5 & n & files & q & lost & PO & GF & EP & PM & LW & NI & II & FQ0 & FM0 & FR & FT).
    split; [auto|]. split; [lia|]. exists n, files, q, (lost ++ lost'). split; [auto|]. split; [auto|]. split; [auto|].
    assert (P := proj1 (perm_cnt _ _) PM). unfold completed in *. rewrite ET.
    split. { apply perm_cnt. intros x. rewrite <- P. rewrite !cnt_app, <- CF. lia. }
    rewrite app_length. split; [lia|]. split.
    { intros N. destruct (NI N) as (F0 & C0 & L0 & Q0). rewrite F0 in LF. cbn in LF.
      repeat split; auto; [destruct (in_flight s'); [auto|cbn in LF; lia]|].
      rewrite L0. destruct lost'; [auto|cbn in LF; lia]. }
    split. { intros N. destruct (II N) as (A & B & C). split; [auto|]. split; [lia|]. intros L. apply C. lia. }
    auto.
  - destruct I as (E1 & E2 & E3 & E4 & E5 & E6 & E6' & E7 & E8 & E9 & E10).
    assert (Z : in_flight s = []) by (unfold in_flight; rewrite E3, E4, E5; auto). rewrite Z in LF. cbn in LF.
    rewrite in_flight_len in LF.
    repeat split; auto; try (match goal with |- ?l = [] => destruct l; [auto|cbn in LF; lia] end). lia.
Qed.

Lemma in_flight_finish : forall s s' k r mail, nth_error (sy_working s) k = Some r ->
  sy_queue s' = sy_queue s -> sy_working s' = remove_nth k (sy_working s) -> sy_mail s' = sy_mail s ++ mail ->
  (forall x, cnt (in_flight s') x + cnt [rq_idx r] x = cnt (in_flight s) x + cnt (flat_map answer_for mail) x)%nat /\
  (List.length (in_flight s') + 1 = List.length (in_flight s) + List.length (flat_map answer_for mail))%nat.
Proof.
  intros s s' k r mail H EQ EW EM. split.
  - intros x. rewrite !cnt_in_flight, EQ, EW, EM, flat_map_app, cnt_app. rewrite (map_removed _ _ _ H). lia.
  - rewrite !in_flight_len, EQ, EW, EM, flat_map_app, app_length. rewrite (removed_len _ _ _ _ H). lia.
Qed.

Lemma Forall_queue_removed : forall (P : piece_requested -> Prop) a b k, Forall P (a ++ b) -> Forall P (a ++ remove_nth k b).
Proof. intros P a b k H. apply Forall_app in H as [A B]. apply Forall_app. split; [auto|]. apply Forall_removed. auto. Qed.

Lemma inv_step : forall sha1 p d0 cwd s o, inv sha1 p d0 s -> op_ok o -> inv sha1 p d0 (sys_step sha1 p cwd s o).
Proof.
  intros sha1 p d0 cwd s o I OK. destruct o as [ep|k found shuffle| |k net pid fuel|].
  - apply (inv_move sha1 p d0 s _ []); auto; cbn [sys_step].
    + intros x. rewrite !cnt_in_flight. cbn [sy_queue sy_working sy_mail]. rewrite flat_map_app. cbn [flat_map answer_for app].
      rewrite app_nil_r. cbn. lia.
    + rewrite !in_flight_len. cbn [sy_queue sy_working sy_mail]. rewrite flat_map_app. cbn [flat_map answer_for app].
      rewrite app_nil_r. cbn. lia.
    + cbn. intros i F _. apply Forall_app. split; [auto|]. constructor; [exact Logic.I|constructor].
  - apply inv_handle; auto.
  - cbn [sys_step]. destruct (sy_queue s) as [|r rest] eqn:EQ; [auto|].
    destruct (List.length (sy_working s) <? sy_workers s)%nat; [|auto].
    apply (inv_move sha1 p d0 s _ []); auto.
    + intros x. rewrite !cnt_in_flight. cbn [sy_queue sy_working sy_mail]. rewrite EQ, cnt_map_app.
      cbn [map]. rewrite (cnt_cons (rq_idx r) (map rq_idx rest)). change (cnt [] x) with 0%nat. lia.
    + rewrite !in_flight_len. cbn [sy_queue sy_working sy_mail]. rewrite EQ, app_length. cbn. lia.
    + rewrite EQ. cbn [sy_queue sy_working]. intros i F. cbn in F. inversion F; subst.
      apply Forall_app in H2 as [A B]. rewrite !Forall_app. repeat split; auto.
  - cbn [sys_step]. destruct (nth_error (sy_working s) k) as [r|] eqn:Hr; [|auto].
    destruct (download sha1 p fuel net pid (rq_endpoint r) (rq_info r) (rq_idx r)) as [[piece|e]| |] eqn:ED; [| | |auto].
    + apply (inv_move sha1 p d0 s _ []); auto.
      * intros x.
        match goal with |- context [in_flight ?st] =>
          destruct (in_flight_finish s st k r [PieceDownloadSuccessfull (rq_endpoint r) piece (rq_idx r)] Hr) as [C _]; auto end.
        specialize (C x). cbn [flat_map answer_for app] in C. change (cnt [] x) with 0%nat. lia.
      * match goal with |- context [in_flight ?st] =>
          destruct (in_flight_finish s st k r [PieceDownloadSuccessfull (rq_endpoint r) piece (rq_idx r)] Hr) as [_ C]; auto end.
        cbn [flat_map answer_for app List.length] in *. lia.
      * cbn [sy_queue sy_working]. intros i F. apply Forall_queue_removed. auto.
      * cbn [sy_mail]. intros i F G. apply Forall_app. split; [auto|]. constructor; [|constructor]. cbn.
        assert (RI : rq_info r = i).
        { apply Forall_app in G as [_ G]. rewrite Forall_forall in G. apply G. eapply nth_error_In; eauto. }
        rewrite <- RI. eapply c37; eauto.
    + apply (inv_move sha1 p d0 s _ []); auto.
      * intros x.
        match goal with |- context [in_flight ?st] =>
          destruct (in_flight_finish s st k r [PieceDownloadFailed (rq_endpoint r) (rq_idx r)] Hr) as [C _]; auto end.
        specialize (C x). cbn [flat_map answer_for app] in C. change (cnt [] x) with 0%nat. lia.
      * match goal with |- context [in_flight ?st] =>
          destruct (in_flight_finish s st k r [PieceDownloadFailed (rq_endpoint r) (rq_idx r)] Hr) as [_ C]; auto end.
        cbn [flat_map answer_for app List.length] in *. lia.
      * cbn [sy_queue sy_working]. intros i F. apply Forall_queue_removed. auto.
      * cbn [sy_mail]. intros i F G. apply Forall_app. split; [auto|]. constructor; [exact Logic.I|constructor].
    + assert (W : (0 < sy_workers s)%nat).
      { unfold inv in I. destruct (ta_info (sy_actor s)) as [i|].
        - destruct I as (D & W5 & n & files & q & lost & PO & GF & EP & PM & LW & NI & II & FQ0 & FM0 & FR & FT).
          assert (L1 : (0 < List.length (in_flight s))%nat) by (rewrite in_flight_len, (removed_len _ _ _ _ Hr); lia).
          destruct (ta_initiated (sy_actor s)) eqn:N; [destruct (II eq_refl) as (_ & B & _); lia|].
          destruct (NI eq_refl) as (F0 & _). rewrite F0 in L1. cbn in L1. lia.
        - destruct I as (E1 & E2 & E3 & E4 & _). rewrite E4 in Hr. destruct k; discriminate. }
      apply (inv_move sha1 p d0 s _ [rq_idx r]); auto.
      * intros x.
        match goal with |- context [in_flight ?st] =>
          destruct (in_flight_finish s st k r [] Hr) as [C _]; auto end.
        specialize (C x). cbn [flat_map answer_for app] in C. change (cnt [] x) with 0%nat in C. lia.
      * match goal with |- context [in_flight ?st] =>
          destruct (in_flight_finish s st k r [] Hr) as [_ C]; auto end.
        cbn [flat_map answer_for app List.length] in *. lia.
      * cbn [sy_workers List.length]. lia.
      * cbn [sy_queue sy_working]. intros i F. apply Forall_queue_removed. auto.
      * cbn [sy_mail]. intros i F G. rewrite app_nil_r. auto.
  - cbn [sys_step]. destruct (sy_writer_dead s) eqn:WD; [auto|]. destruct (sy_writer s) as [|r rest] eqn:WQ; [auto|].
    unfold inv in *. destruct (ta_info (sy_actor s)) as [i|] eqn:EI.
    + destruct (write p cwd (sy_disk s) (rd_piece r) (rd_idx r) (rd_files r) (rd_piece_length r)); cbn [sy_actor sy_dead sy_workers sy_queue sy_working sy_mail sy_trace];
        rewrite EI; exact I.
    + destruct I as (_ & _ & _ & _ & _ & _ & _ & E7 & _). congruence.
Qed.

Lemma inv_reached : forall sha1 p cwd ih d s, reached sha1 p cwd ih d s -> inv sha1 p d s.
Proof.
  intros sha1 p cwd ih d s (ops & F & ->). unfold sys_run.
  assert (G : forall ops s0, inv sha1 p d s0 -> Forall op_ok ops -> inv sha1 p d (fold_left (sys_step sha1 p cwd) ops s0)).
  { induction ops0 as [|o t IH]; intros s0 I0 F0; [auto|]. inversion F0; subst. cbn. apply IH; [|auto]. apply inv_step; auto. }
  apply G; [apply inv_init|auto].
Qed.

Lemma reached_step : forall sha1 p cwd ih d s o, reached sha1 p cwd ih d s -> op_ok o ->
  reached sha1 p cwd ih d (sys_step sha1 p cwd s o).
Proof.
  intros sha1 p cwd ih d s o (ops & F & ->) H. exists (ops ++ [o]). split.
  - apply Forall_app. auto.
  - unfold sys_run. rewrite fold_left_app. reflexivity.
Qed.

Lemma reached_ind : forall sha1 p cwd ih d (P : sys -> Prop), P (sys_init ih d) ->
  (forall s o, reached sha1 p cwd ih d s -> op_ok o -> P s -> P (sys_step sha1 p cwd s o)) ->
  forall s, reached sha1 p cwd ih d s -> P s.
Proof.
  intros sha1 p cwd ih d P B S s (ops & F & ->). induction ops as [|o ops IH] using rev_ind; [exact B|].
  apply Forall_app in F as [F1 F2]. inversion F2; subst. unfold sys_run. rewrite fold_left_app. cbn [fold_left].
  apply S; auto. exists ops. auto.
Qed.

Lemma pieces_of_unique : forall p i n m, pieces_of p i n -> pieces_of p i m -> n = m.
Proof. intros p i n m (t & A & _ & ->) (t' & B & _ & ->). rewrite A in B. injection B as ->. auto. Qed.

(** ** C39 - C41 *)

Lemma c39 : forall sha1 p cwd ih d s, reached sha1 p cwd ih d s ->
  match ta_info (sy_actor s) with
  | None => waiting s = [] /\ in_flight s = [] /\ completed s = []
  | Some i => exists n lost, pieces_of p i n /\ (List.length lost + sy_workers s = 5)%nat /\
      Permutation (waiting s ++ in_flight s ++ completed s ++ lost) (numbers n)
  end.
Proof.
  intros sha1 p cwd ih d s R. apply inv_reached in R. unfold inv in R. unfold waiting.
  destruct (ta_info (sy_actor s)) as [i|].
  - destruct R as (D & W5 & n & files & q & lost & PO & GF & EP & PM & LW & NI & II & FQ0 & FM0 & FR & FT).
    rewrite EP. exists n, lost. auto.
  - destruct R as (E1 & E2 & E3 & E4 & E5 & E6 & _). rewrite E1. unfold in_flight, completed. rewrite E3, E4, E5, E6. auto.
Qed.

Lemma nodup_cnt : forall l (x : N), NoDup l -> cnt l x = if in_dec N.eq_dec x l then 1%nat else 0%nat.
Proof.
  intros l x H. destruct (in_dec N.eq_dec x l) as [I|I].
  - apply (NoDup_count_occ' N.eq_dec l); auto.
  - apply count_occ_not_In. auto.
Qed.

Lemma c39_one : forall sha1 p cwd ih d s i n idx, reached sha1 p cwd ih d s -> ta_info (sy_actor s) = Some i ->
  pieces_of p i n -> sy_workers s = 5%nat -> (idx < n)%N ->
  (cnt (waiting s) idx + cnt (in_flight s) idx + cnt (completed s) idx = 1)%nat.
Proof.
  intros sha1 p cwd ih d s i n idx R E PO W L. apply c39 in R. rewrite E in R. destruct R as (n' & lost & PO' & LW & PM).
  assert (n' = n) by (eapply pieces_of_unique; eauto). subst n'.
  assert (lost = []) by (destruct lost; [auto|cbn in LW; lia]). subst lost.
  pose proof (proj1 (perm_cnt _ _) PM idx) as P. rewrite !cnt_app in P. change (cnt [] idx) with 0%nat in P.
  rewrite (nodup_cnt (numbers n)) in P by apply numbers_nodup. destruct (in_dec N.eq_dec idx (numbers n)) as [_|X]; [lia|].
  exfalso. apply X. apply in_numbers. auto.
Qed.

Lemma begun : forall sha1 p cwd ih d s, reached sha1 p cwd ih d s -> requested (sy_trace s) <> [] ->
  ta_initiated (sy_actor s) = true /\ exists i, ta_info (sy_actor s) = Some i.
Proof.
  intros sha1 p cwd ih d s R N. apply inv_reached in R. unfold inv in R.
  destruct (ta_info (sy_actor s)) as [i|].
  - destruct R as (D & W5 & n & files & q & lost & PO & GF & EP & PM & LW & NI & II & FQ0 & FM0 & FR & FT).
    split; [|eauto]. destruct (ta_initiated (sy_actor s)); [auto|]. destruct (NI eq_refl) as (_ & _ & _ & Q0). congruence.
  - destruct R as (E1 & E2 & E3 & E4 & E5 & E6 & E6' & _). congruence.
Qed.

Lemma c40 : forall sha1 p cwd ih d s, reached sha1 p cwd ih d s ->
  (List.length (in_flight s) <= sy_workers s <= 5)%nat /\
  (requested (sy_trace s) <> [] -> (List.length (in_flight s) < sy_workers s)%nat -> waiting s = []).
Proof.
  intros sha1 p cwd ih d s R. pose proof (begun _ _ _ _ _ _ R) as B. apply inv_reached in R. unfold inv in R. unfold waiting.
  destruct (ta_info (sy_actor s)) as [i|].
  - destruct R as (D & W5 & n & files & q & lost & PO & GF & EP & PM & LW & NI & II & FQ0 & FM0 & FR & FT).
    rewrite EP. destruct (ta_initiated (sy_actor s)).
    + destruct (II eq_refl) as (_ & L & Q). split; [lia|]. intros _ L'. apply Q. lia.
    + destruct (NI eq_refl) as (F0 & _). rewrite F0. split; [cbn; lia|]. intros N. destruct (B N). discriminate.
  - destruct R as (E1 & E2 & E3 & E4 & E5 & E6 & E6' & E7 & E8 & _). rewrite in_flight_len, E3, E4, E5. cbn. split; [lia|]. congruence.
Qed.

Lemma NoDup_app_l : forall A (a b : list A), NoDup (a ++ b) -> NoDup a.
Proof. induction a as [|x a IH]; intros b H; [constructor|]. inversion H; subst. constructor; [|eauto]. intros X. apply H2. apply in_or_app; auto. Qed.
Lemma NoDup_app_r : forall A (a b : list A), NoDup (a ++ b) -> NoDup b.
Proof. induction a as [|x a IH]; intros b H; [auto|]. inversion H; subst. eauto. Qed.

Lemma c41 : forall sha1 p cwd ih d s, reached sha1 p cwd ih d s -> NoDup (completed s).
Proof.
  intros sha1 p cwd ih d s R. apply c39 in R. destruct (ta_info (sy_actor s)) as [i|].
  - destruct R as (n & lost & _ & _ & PM). apply Permutation_sym in PM. pose proof (Permutation_NoDup PM (numbers_nodup n)) as H.
    apply NoDup_app_r, NoDup_app_r, NoDup_app_l in H. auto.
  - destruct R as (_ & _ & ->). constructor.
Qed.

Lemma c41_done : forall sha1 p cwd ih d s i n, reached sha1 p cwd ih d s -> ta_info (sy_actor s) = Some i ->
  pieces_of p i n -> sy_workers s = 5%nat -> waiting s = [] -> in_flight s = [] -> Permutation (completed s) (numbers n).
Proof.
  intros sha1 p cwd ih d s i n R E PO W Q F. apply c39 in R. rewrite E in R. destruct R as (n' & lost & PO' & LW & PM).
  assert (n' = n) by (eapply pieces_of_unique; eauto). subst n'.
  assert (lost = []) by (destruct lost; [auto|cbn in LW; lia]). subst lost. rewrite Q, F, app_nil_r in PM. auto.
Qed.

(** ** The writer *)

Lemma handle_ready : forall p found shuffle a m a' es, handle p found shuffle a m = Ret (a', es) ->
  (ta_info a' = ta_info a \/ ta_info a = None) /\ (ta_info a = None -> answer_for m = [] -> es = []).
Proof.
  intros p found shuffle a m a' es H. destruct m as [ep|ep piece idx|ep idx]; cbn [handle] in H.
  - unfold handle_peer_found in H. destruct (ta_info a) as [i|] eqn:EI.
    + split; [|discriminate]. left. destruct ((10 <? lenN (ta_peers a ++ [apeer_new ep]))%N && negb (ta_initiated a)).
      * apply obind_ret in H as (q & _ & H). apply obind_ret in H as ([[q' ini] es'] & _ & H). injection H as <- _. auto.
      * injection H as <- _. auto.
    + split; [auto|]. intros _ _. apply obind_ret in H as ([i|] & _ & H).
      * apply obind_ret in H as (? & _ & H). apply obind_ret in H as (? & _ & H). congruence.
      * congruence.
  - split; [|discriminate]. unfold handle_success in H. apply obind_ret in H as (i & _ & H). apply obind_ret in H as (f & _ & H).
    apply obind_ret in H as (q & _ & H). destruct (pool_pop q). injection H as <- _. auto.
  - split; [|discriminate]. unfold handle_failed in H. apply obind_ret in H as (q & _ & H). apply obind_ret in H as (e & _ & H).
    destruct (pool_pop (pool_insert q idx)) as [[n|] q'].
    + apply obind_ret in H as (i & _ & H). injection H as <- _. auto.
    + injection H as <- _. auto.
Qed.

(** What a step does to the trace and the writer's queue. *)
Lemma step_trace : forall sha1 p cwd s o,
  let s' := sys_step sha1 p cwd s o in
  (sy_trace s' = sy_trace s /\ sy_actor s' = sy_actor s) \/
  (exists k found shuffle m a es, o = OHandle k found shuffle /\ sy_dead s = false /\ nth_error (sy_mail s) k = Some m /\
     handle p found shuffle (sy_actor s) m = Ret (a, es) /\
     sy_trace s' = sy_trace s ++ Handled m :: map Sent es /\ sy_actor s' = a /\ sy_mail s' = remove_nth k (sy_mail s) /\
     sy_writer s' = sy_writer s ++ readies_of es /\ sy_queue s' = sy_queue s ++ requests_of es /\ sy_working s' = sy_working s /\
     sy_disk s' = sy_disk s /\ sy_writer_dead s' = sy_writer_dead s /\ sy_workers s' = sy_workers s).
Proof.
  intros sha1 p cwd s o. cbn zeta. destruct o as [ep|k found shuffle| |k net pid fuel|]; cbn [sys_step]; auto.
  - destruct (sy_dead s) eqn:D; [auto|]. destruct (nth_error (sy_mail s) k) as [m|] eqn:Hm; [|auto].
    destruct (handle p found shuffle (sy_actor s) m) as [[a es]| |] eqn:EH; [|auto|auto].
    right. exists k, found, shuffle, m, a, es. repeat split; auto.
  - destruct (sy_queue s); [auto|]. destruct (List.length (sy_working s) <? sy_workers s)%nat; auto.
  - destruct (nth_error (sy_working s) k) as [r|]; [|auto].
    destruct (download sha1 p fuel net pid (rq_endpoint r) (rq_info r) (rq_idx r)) as [[|]| |]; auto.
  - destruct (sy_writer_dead s); [auto|]. destruct (sy_writer s); [auto|].
    destruct (write p cwd (sy_disk s) (rd_piece p0) (rd_idx p0) (rd_files p0) (rd_piece_length p0)); auto.
Qed.

Lemma trace_app_writer : forall tr m es, to_writer (tr ++ Handled m :: map Sent es) = to_writer tr ++ readies_of es.
Proof. intros. rewrite <- (to_writer_sent m es). unfold to_writer. now rewrite flat_map_app. Qed.
Lemma trace_app_requested : forall tr m es, requested (tr ++ Handled m :: map Sent es) = requested tr ++ requests_of es.
Proof. intros. rewrite <- (requested_sent m es). unfold requested. now rewrite flat_map_app. Qed.
Lemma trace_app_handled : forall tr m es, handled (tr ++ Handled m :: map Sent es) = handled tr ++ [m].
Proof. intros. rewrite <- (handled_sent m es). unfold handled. now rewrite flat_map_app. Qed.

Lemma step_writer_same : forall sha1 p cwd s o, o <> OWrite -> sy_trace (sys_step sha1 p cwd s o) = sy_trace s ->
  sy_actor (sys_step sha1 p cwd s o) = sy_actor s ->
  sy_writer (sys_step sha1 p cwd s o) = sy_writer s /\ sy_disk (sys_step sha1 p cwd s o) = sy_disk s /\
  sy_writer_dead (sys_step sha1 p cwd s o) = sy_writer_dead s.
Proof.
  intros sha1 p cwd s o N E EA. destruct o as [ep|k found shuffle| |k net pid fuel|]; cbn [sys_step] in *; auto; [| | |congruence].
  - destruct (sy_dead s) eqn:D; [auto|]. destruct (nth_error (sy_mail s) k) as [m|] eqn:Hm; [|auto].
    destruct (handle p found shuffle (sy_actor s) m) as [[a es]| |] eqn:EH; [|auto|auto].
    exfalso. cbn [sy_trace] in E. apply (f_equal (@List.length event)) in E. rewrite app_length in E. cbn in E. lia.
  - destruct (sy_queue s); [auto|]. destruct (List.length (sy_working s) <? sy_workers s)%nat; auto.
  - destruct (nth_error (sy_working s) k) as [r|]; [|auto].
    destruct (download sha1 p fuel net pid (rq_endpoint r) (rq_info r) (rq_idx r)) as [[|]| |]; auto.
Qed.

Lemma is_write : forall o, o = OWrite \/ o <> OWrite.
Proof. destruct o; auto; right; discriminate. Qed.

(** The queue of the writer is the end of what was handed to it. *)
Lemma writer_suffix : forall sha1 p cwd ih d s, reached sha1 p cwd ih d s ->
  exists done, to_writer (sy_trace s) = done ++ sy_writer s.
Proof.
  intros sha1 p cwd ih d. apply reached_ind; [exists []; auto|]. intros s o _ _ (done & E).
  destruct (step_trace sha1 p cwd s o) as [(ET & EA)|(k & found & shuffle & m & a & es & -> & _ & _ & _ & ET & _ & _ & EW & _)].
  - destruct (is_write o) as [->|NW]; [|destruct (step_writer_same sha1 p cwd s o NW ET EA) as (EW & _); rewrite ET, EW; eauto].
    rewrite ET. cbn [sys_step]. destruct (sy_writer_dead s); [eauto|]. destruct (sy_writer s) as [|r rest] eqn:EWQ; [exists done; rewrite EWQ; auto|].
    destruct (write p cwd (sy_disk s) (rd_piece r) (rd_idx r) (rd_files r) (rd_piece_length r)); cbn [sy_writer].
    + exists (done ++ [r]). rewrite E, <- app_assoc. auto.
    + exists (done ++ [r]). rewrite E, <- app_assoc. auto.
    + exists done. rewrite EWQ. auto.
  - exists done. rewrite ET, EW, trace_app_writer, E. apply app_assoc_reverse.
Qed.

Lemma written_prefix : forall s done, to_writer (sy_trace s) = done ++ sy_writer s -> written s = map rd_idx done.
Proof.
  intros s done E. unfold written. rewrite E. f_equal. rewrite app_length.
  replace (List.length done + List.length (sy_writer s) - List.length (sy_writer s))%nat with (List.length done + 0)%nat by lia.
  rewrite firstn_app_2. cbn. apply app_nil_r.
Qed.

Lemma write_pieces_app : forall p cwd files plen T a b d, write_pieces p cwd files plen T (a ++ b) d
  = (d' <- write_pieces p cwd files plen T a d ;; write_pieces p cwd files plen T b d').
Proof.
  intros p cwd files plen T. induction a as [|x a IH]; intros b d; [reflexivity|]. cbn [app write_pieces].
  destruct (write p cwd d (torrent_piece T plen x) x files plen); cbn [obind]; auto.
Qed.

Definition bytes_dec : forall a b : bytes, {a = b} + {a <> b} := list_eq_dec N.eq_dec.

(** Either a collision has been met, or every piece handed over is the piece of the torrent. *)
Lemma no_collision : forall sha1 plen T s, collision sha1 plen T s \/
  (forall r, In r (to_writer (sy_trace s)) -> sha1 (rd_piece r) = sha1 (torrent_piece T plen (rd_idx r)) ->
    rd_piece r = torrent_piece T plen (rd_idx r)).
Proof.
  intros sha1 plen T s. unfold collision. induction (to_writer (sy_trace s)) as [|r l IH]; [right; intros r []|].
  destruct IH as [(x & I & N & E)|IH]; [left; exists x; cbn; auto|].
  destruct (bytes_dec (rd_piece r) (torrent_piece T plen (rd_idx r))) as [A|A].
  - right. intros x [<-|I]; auto.
  - destruct (bytes_dec (sha1 (rd_piece r)) (sha1 (torrent_piece T plen (rd_idx r)))) as [B|B].
    + left. exists r. cbn; auto.
    + right. intros x [<-|I]; [congruence|auto].
Qed.

Lemma collision_step : forall sha1 p cwd plen T s o, collision sha1 plen T s -> collision sha1 plen T (sys_step sha1 p cwd s o).
Proof.
  intros sha1 p cwd plen T s o (r & I & N & E). exists r. split; [|auto].
  destruct (step_trace sha1 p cwd s o) as [(ET & EA)|(k & found & shuffle & m & a & es & -> & _ & _ & _ & ET & _)].
  - rewrite ET. auto.
  - rewrite ET, trace_app_writer. apply in_or_app. auto.
Qed.

Lemma usum_total : forall p files acc, (acc + total_length files < 2 ^ 64)%N -> usum p acc (map get_length files) = Ret (acc + total_length files)%N.
Proof.
  intros p. induction files as [|f t IH]; intros acc L; cbn [map usum total_length] in *; [f_equal; lia|].
  unfold get_length in *. rewrite uadd_ok by lia. cbn [obind]. rewrite IH by lia. f_equal. lia.
Qed.

Lemma describes_count : forall sha1 p i files T n, describes sha1 i files T -> pieces_of p i n -> n = piece_count (lenN T) (i_piece_length i).
Proof.
  intros sha1 p i files T n (GF & TL & L64 & PP & _) (total & ET & _ & ->). apply c11_files in GF. f_equal.
  unfold get_files, get_total_length in *. destruct (i_files i) as [fs|].
  - injection GF as ->. rewrite usum_total in ET by lia. injection ET as <-. lia.
  - destruct (i_length i); [|discriminate]. injection GF as <-. injection ET as <-. cbn in TL. lia.
Qed.

Lemma disk_inv : forall sha1 p cwd ih d s, reached sha1 p cwd ih d s ->
  forall i files T, ta_info (sy_actor s) = Some i -> describes sha1 i files T -> disk_ready cwd files d ->
  collision sha1 (i_piece_length i) T s \/
  exists done, to_writer (sy_trace s) = done ++ sy_writer s /\ sy_writer_dead s = false /\
    write_pieces p cwd files (i_piece_length i) T (map rd_idx done) d = Ret (sy_disk s).
Proof.
  intros sha1 p cwd ih d. refine (reached_ind sha1 p cwd ih d _ _ _); [intros; discriminate|].
  intros s o R OK IH i files T EI DE DR. pose proof (inv_reached _ _ _ _ _ _ R) as I.
  pose proof (reached_step _ _ _ _ _ _ _ R OK) as R'. pose proof (inv_reached _ _ _ _ _ _ R') as I'.
  destruct (no_collision sha1 (i_piece_length i) T (sys_step sha1 p cwd s o)) as [C|NC]; [auto|]. right.
  destruct (step_trace sha1 p cwd s o) as [(ET & EA)|(k & found & shuffle & m & a & es & -> & D & Hm & EH & ET & EA & EM & EW & EQ & EK & ED & EWD & EWK)].
  - rewrite EA in EI. destruct (IH i files T EI DE DR) as [C|(done & E & WD & WP)].
    { exfalso. destruct (collision_step sha1 p cwd _ _ _ o C) as (r & J & N & H). apply N. apply NC; auto. }
    destruct (is_write o) as [->|NW];
      [|destruct (step_writer_same sha1 p cwd s o NW ET EA) as (EW & ED & EWD); rewrite ET, EW, ED, EWD; exists done; auto].
    rewrite ET. cbn [sys_step]. rewrite WD. destruct (sy_writer s) as [|r rest] eqn:EWQ; [exists done; rewrite EWQ; auto|].
    unfold inv in I. rewrite EI in I.
    destruct I as (D & W5 & n & fs & q & lost & PO & GF & EP & PM & LW & NI & II & FQ0 & FM0 & FR & FT).
    assert (DE' := DE). destruct DE' as (GF' & TL & L64 & PP & GD & HS). apply c11_files in GF'.
    assert (fs = files) by congruence. subst fs.
    pose proof (describes_count sha1 p i files T n DE PO) as EN.
    rewrite Forall_forall in FR. destruct (FR r) as (F1 & F2 & F3 & F4).
    { rewrite E. apply in_or_app. right. left. auto. }
    assert (RP : rd_piece r = torrent_piece T (i_piece_length i) (rd_idx r)).
    { apply NC; [rewrite ET, E; apply in_or_app; right; left; auto|]. rewrite F4. apply HS. subst n. auto. }
    assert (FD : Forall (fun x => x < piece_count (lenN T) (i_piece_length i))%N (map rd_idx done)).
    { rewrite <- EN. apply Forall_forall. intros x X. apply in_map_iff in X as (y & <- & Y). apply FR. rewrite E. apply in_or_app. auto. }
    destruct (write_pieces_right p cwd files (i_piece_length i) T (map rd_idx done) d TL L64 PP GD DR FD) as (d1 & W1 & DR1 & _).
    assert (d1 = sy_disk s) by congruence. subst d1.
    destruct (write_piece_right p cwd files (i_piece_length i) T (rd_idx r) (sy_disk s) TL L64 PP GD DR1 ltac:(subst n; auto)) as (d2 & W2 & _).
    rewrite RP, F1, F2, W2. cbn [sy_writer sy_writer_dead sy_disk]. exists (done ++ [r]). split; [rewrite E, <- app_assoc; auto|]. split; [auto|].
    rewrite map_app, write_pieces_app, WP. cbn [obind map write_pieces]. rewrite W2. auto.
  - destruct (handle_ready _ _ _ _ _ _ _ EH) as [[HI|HI] HN].
    + rewrite EA, HI in EI. destruct (IH i files T EI DE DR) as [C|(done & E & WD & WP)].
      { exfalso. destruct (collision_step sha1 p cwd _ _ _ (OHandle k found shuffle) C) as (r & J & N & H). apply N. apply NC; auto. }
      exists done. rewrite ET, EW, ED, EWD, trace_app_writer, E. split; [apply app_assoc_reverse|]. auto.
    + unfold inv in I. rewrite HI in I. destruct I as (E1 & E2 & E3 & E4 & E5 & E6 & E6' & E7 & E8 & E9 & E10).
      assert (A0 : answer_for m = []).
      { destruct (answer_for m) eqn:A; [auto|]. pose proof (mail_removed_len _ _ _ Hm) as ML. rewrite E5, A in ML. cbn in ML. lia. }
      rewrite (HN HI A0) in *. exists []. rewrite ET, EW, ED, EWD, trace_app_writer, E6, E7, E9, E10. cbn. auto.
Qed.

Lemma c42 : forall sha1 p cwd ih d s i files T, reached sha1 p cwd ih d s ->
  ta_info (sy_actor s) = Some i -> describes sha1 i files T -> disk_ready cwd files d ->
  collision sha1 (i_piece_length i) T s \/
  (sy_writer_dead s = false /\ disk_ready cwd files (sy_disk s) /\
   (forall g, holds cwd files T d g \/ In (g / i_piece_length i)%N (written s) -> holds cwd files T (sy_disk s) g) /\
   (forall l, unrelated cwd files l -> sy_disk s l = d l) /\
   ((forall idx, (idx < piece_count (lenN T) (i_piece_length i))%N -> In idx (written s)) ->
     forall k f, nth_error files k = Some f -> (0 < f_length f)%N ->
       sy_disk s (cwd ++ f_path f) = Some (NFile (file_content T files k f)))).
Proof.
  intros sha1 p cwd ih d s i files T R EI DE DR.
  destruct (disk_inv _ _ _ _ _ _ R i files T EI DE DR) as [C|(done & E & WD & WP)]; [auto|]. right.
  pose proof (inv_reached _ _ _ _ _ _ R) as I. unfold inv in I. rewrite EI in I.
  destruct I as (D & W5 & n & fs & q & lost & PO & GF & EP & PM & LW & NI & II & FQ0 & FM0 & FR & FT).
  pose proof (describes_count sha1 p i files T n DE PO) as EN.
  assert (DE' := DE). destruct DE' as (GF' & TL & L64 & PP & GD & HS). apply c11_files in GF'.
  rewrite (written_prefix _ _ E).
  assert (FD : Forall (fun x => x < piece_count (lenN T) (i_piece_length i))%N (map rd_idx done)).
  { rewrite <- EN. apply Forall_forall. intros x X. apply in_map_iff in X as (y & <- & Y).
    rewrite Forall_forall in FR. apply FR. rewrite E. apply in_or_app. auto. }
  destruct (write_pieces_right p cwd files (i_piece_length i) T (map rd_idx done) d TL L64 PP GD DR FD) as (d1 & W1 & DR1 & H1 & U1 & _).
  assert (d1 = sy_disk s) by congruence. subst d1.
  split; [auto|]. split; [auto|]. split; [auto|]. split; [auto|].
  intros ALL k f Hk Lf. apply all_held; auto. intros g G. apply H1. right. apply ALL. apply index_in_range; auto.
Qed.

(** A run that ended anywhere, even inside a write, and a second one that completed. *)
Lemma c42_restart : forall sha1 p p' cwd ih ih' d s d' s' i files T, reached sha1 p cwd ih d s ->
  ta_info (sy_actor s) = Some i -> describes sha1 i files T -> disk_ready cwd files d ->
  interrupted p cwd files (i_piece_length i) T (sy_disk s) d' ->
  reached sha1 p' cwd ih' d' s' -> ta_info (sy_actor s') = Some i ->
  (forall idx, (idx < piece_count (lenN T) (i_piece_length i))%N -> In idx (written s')) ->
  collision sha1 (i_piece_length i) T s \/ collision sha1 (i_piece_length i) T s' \/
  ((forall k f, nth_error files k = Some f -> (0 < f_length f)%N ->
      sy_disk s' (cwd ++ f_path f) = Some (NFile (file_content T files k f))) /\
   (forall l, unrelated cwd files l -> sy_disk s' l = d l)).
Proof.
  intros sha1 p p' cwd ih ih' d s d' s' i files T R EI DE DR INT R' EI' ALL.
  destruct (c42 _ _ _ _ _ _ _ _ _ R EI DE DR) as [C|(WD & DR1 & H1 & U1 & _)]; [auto|]. right.
  assert (DE' := DE). destruct DE' as (GF' & TL & L64 & PP & GD & HS). apply c11_files in GF'.
  destruct (c26_ready p cwd files (i_piece_length i) T _ _ TL L64 PP GD DR1 INT) as (DR2 & H2 & U2).
  destruct (c42 _ _ _ _ _ _ _ _ _ R' EI' DE DR2) as [C|(WD' & DR3 & H3 & U3 & F3)]; [auto|]. right.
  split; [auto|]. intros l U. rewrite U3, U2, U1; auto.
Qed.

(** When nothing is left to do anywhere, everything is on the disk. *)
Lemma c42_done : forall sha1 p cwd ih d s i files T, reached sha1 p cwd ih d s ->
  ta_info (sy_actor s) = Some i -> describes sha1 i files T ->
  sy_workers s = 5%nat -> waiting s = [] -> in_flight s = [] -> sy_writer s = [] ->
  forall idx, (idx < piece_count (lenN T) (i_piece_length i))%N -> In idx (written s).
Proof.
  intros sha1 p cwd ih d s i files T R EI DE W Q F WQ idx L.
  destruct (writer_suffix _ _ _ _ _ _ R) as (done & E). rewrite (written_prefix _ _ E). rewrite WQ, app_nil_r in E. rewrite <- E.
  pose proof (c39 _ _ _ _ _ _ R) as C. rewrite EI in C. destruct C as (n & _ & PO & _).
  pose proof (c41_done _ _ _ _ _ _ _ _ R EI PO W Q F) as PM.
  apply (Permutation_in idx (Permutation_sym PM)). apply in_numbers. rewrite (describes_count sha1 p i files T n DE PO). auto.
Qed.

(** ** C45: counters *)

(** The peer list after a history of handled messages. *)
Definition note (peers : list apeer) (m : tmsg) : list apeer :=
  match m with
  | PeerFound ep => peers ++ [apeer_new ep]
  | PieceDownloadSuccessfull ep _ _ => update_success peers ep
  | PieceDownloadFailed ep _ => update_failed peers ep
  end.

Lemma handle_peers : forall p found shuffle a m a' es, handle p found shuffle a m = Ret (a', es) -> ta_peers a' = note (ta_peers a) m.
Proof.
  intros p found shuffle a m a' es H. destruct m as [ep|ep piece idx|ep idx]; cbn [handle note] in *.
  - unfold handle_peer_found in H. destruct (ta_info a) as [i|] eqn:EI.
    + destruct ((10 <? lenN (ta_peers a ++ [apeer_new ep]))%N && negb (ta_initiated a)).
      * apply obind_ret in H as (q & _ & H). apply obind_ret in H as ([[q' ini] es'] & _ & H). injection H as <- _. auto.
      * injection H as <- _. auto.
    + apply obind_ret in H as ([i|] & _ & H).
      * apply obind_ret in H as (? & _ & H). apply obind_ret in H as (? & _ & H). injection H as <- _. auto.
      * injection H as <- _. auto.
  - unfold handle_success in H. apply obind_ret in H as (i & _ & H). apply obind_ret in H as (f & _ & H).
    apply obind_ret in H as (q & _ & H). destruct (pool_pop q). injection H as <- _. auto.
  - unfold handle_failed in H. apply obind_ret in H as (q & _ & H). apply obind_ret in H as (e & _ & H).
    destruct (pool_pop (pool_insert q idx)) as [[n|] q'].
    + apply obind_ret in H as (i & _ & H). injection H as <- _. auto.
    + injection H as <- _. auto.
Qed.

Lemma peers_history : forall sha1 p cwd ih d s, reached sha1 p cwd ih d s ->
  ta_peers (sy_actor s) = fold_left note (handled (sy_trace s)) [].
Proof.
  intros sha1 p cwd ih d. apply reached_ind; [reflexivity|]. intros s o _ _ IH.
  destruct (step_trace sha1 p cwd s o) as [(ET & EA)|(k & found & shuffle & m & a & es & -> & _ & _ & EH & ET & EA & _)].
  - rewrite ET, EA. auto.
  - rewrite ET, EA, trace_app_handled, fold_left_app, <- IH. cbn. eapply handle_peers; eauto.
Qed.

Definition counted (ms : list tmsg) (k : nat) (x : apeer) : Prop :=
  exists a b, ms = a ++ PeerFound (ap_endpoint x) :: b /\ List.length (found_peers a) = k /\
    ap_downloaded x = successes (ap_endpoint x) b /\ ap_failed x = failures (ap_endpoint x) b.

Lemma found_app : forall a b, found_peers (a ++ b) = found_peers a ++ found_peers b.
Proof. intros. unfold found_peers. apply flat_map_app. Qed.

Lemma count_snoc : forall ep a m,
  successes ep (a ++ [m]) = (successes ep a + match m with PieceDownloadSuccessfull e _ _ => if bytes_eqb e ep then 1 else 0 | _ => 0 end)%N /\
  failures ep (a ++ [m]) = (failures ep a + match m with PieceDownloadFailed e _ => if bytes_eqb e ep then 1 else 0 | _ => 0 end)%N.
Proof.
  intros ep a m. unfold successes, failures. rewrite !filter_app. unfold lenN. rewrite !app_length. cbn [filter].
  destruct m as [e|e pc i|e i]; cbn; [lia| |]; destruct (bytes_eqb e ep); cbn; lia.
Qed.

Lemma bytes_eqb_sym : forall a b, bytes_eqb a b = bytes_eqb b a.
Proof.
  intros a b. destruct (bytes_eqb a b) eqn:E.
  - apply bytes_eqb_eq in E as ->. symmetry. apply bytes_eqb_eq. auto.
  - destruct (bytes_eqb b a) eqn:F; [|auto]. apply bytes_eqb_eq in F as ->. rewrite (proj2 (bytes_eqb_eq a a) eq_refl) in E. discriminate.
Qed.

Lemma counted_all : forall ms, List.length (fold_left note ms []) = List.length (found_peers ms) /\
  forall k x, nth_error (fold_left note ms []) k = Some x -> counted ms k x.
Proof.
  induction ms as [|m ms IH] using rev_ind; [split; [auto|]; intros [|k] x H; discriminate|].
  destruct IH as [IL IH]. rewrite fold_left_app. cbn [fold_left]. rewrite found_app, app_length.
  set (l := fold_left note ms []) in *.
  assert (UP : forall (f : apeer -> apeer) k x, nth_error (map f l) k = Some x -> exists y, nth_error l k = Some y /\ x = f y).
  { intros f k x H. rewrite nth_error_map in H. destruct (nth_error l k) as [y|]; [|discriminate]. injection H as <-. eauto. }
  destruct m as [ep|ep piece idx|ep idx]; cbn [note].
  - rewrite app_length. cbn [found_peers flat_map app List.length]. split; [lia|]. intros k x H.
    destruct (Nat.ltb_spec k (List.length l)).
    + rewrite nth_error_app1 in H by auto. destruct (IH k x H) as (a & b & -> & K & S & F).
      exists a, (b ++ [PeerFound ep]). split; [now rewrite <- app_assoc|]. split; [auto|].
      destruct (count_snoc (ap_endpoint x) b (PeerFound ep)) as [-> ->]. rewrite !N.add_0_r. auto.
    + rewrite nth_error_app2 in H by auto. destruct (k - List.length l)%nat as [|j] eqn:J; [|destruct j; discriminate].
      injection H as <-. exists ms, []. split; [auto|]. split; [lia|]. auto.
  - unfold update_success. rewrite map_length. cbn [found_peers flat_map app List.length]. split; [lia|]. intros k x H.
    apply UP in H as (y & Hy & ->). destruct (IH k y Hy) as (a & b & E & K & S & F).
    assert (EE : ap_endpoint (if bytes_eqb (ap_endpoint y) ep then {| ap_endpoint := ap_endpoint y; ap_downloaded := ap_downloaded y + 1; ap_failed := ap_failed y |} else y) = ap_endpoint y)
      by (destruct (bytes_eqb (ap_endpoint y) ep); auto).
    exists a, (b ++ [PieceDownloadSuccessfull ep piece idx]). rewrite EE. split; [rewrite E, <- app_assoc; auto|]. split; [auto|].
    destruct (count_snoc (ap_endpoint y) b (PieceDownloadSuccessfull ep piece idx)) as [-> ->]. rewrite (bytes_eqb_sym ep).
    destruct (bytes_eqb (ap_endpoint y) ep); cbn [ap_downloaded ap_failed]; split; lia.
  - unfold update_failed. rewrite map_length. cbn [found_peers flat_map app List.length]. split; [lia|]. intros k x H.
    apply UP in H as (y & Hy & ->). destruct (IH k y Hy) as (a & b & E & K & S & F).
    assert (EE : ap_endpoint (if bytes_eqb (ap_endpoint y) ep then {| ap_endpoint := ap_endpoint y; ap_downloaded := ap_downloaded y; ap_failed := ap_failed y + 1 |} else y) = ap_endpoint y)
      by (destruct (bytes_eqb (ap_endpoint y) ep); auto).
    exists a, (b ++ [PieceDownloadFailed ep idx]). rewrite EE. split; [rewrite E, <- app_assoc; auto|]. split; [auto|].
    destruct (count_snoc (ap_endpoint y) b (PieceDownloadFailed ep idx)) as [-> ->]. rewrite (bytes_eqb_sym ep).
    destruct (bytes_eqb (ap_endpoint y) ep); cbn [ap_downloaded ap_failed]; split; lia.
Qed.

Lemma c45 : forall sha1 p cwd ih d s, reached sha1 p cwd ih d s ->
  map ap_endpoint (ta_peers (sy_actor s)) = found_peers (handled (sy_trace s)) /\
  forall k x, nth_error (ta_peers (sy_actor s)) k = Some x ->
    exists a b, handled (sy_trace s) = a ++ PeerFound (ap_endpoint x) :: b /\ List.length (found_peers a) = k /\
      ap_downloaded x = successes (ap_endpoint x) b /\ ap_failed x = failures (ap_endpoint x) b.
Proof.
  intros sha1 p cwd ih d s R. rewrite (peers_history _ _ _ _ _ _ R). destruct (counted_all (handled (sy_trace s))) as [L C].
  split; [|exact C]. apply nth_ext_error. intros k. rewrite nth_error_map.
  destruct (nth_error (fold_left note (handled (sy_trace s)) []) k) as [x|] eqn:E; cbn [option_map].
  - destruct (C k x E) as (a & b & EH & K & _). rewrite EH, found_app, nth_error_app2 by lia.
    rewrite K, Nat.sub_diag. reflexivity.
  - symmetry. apply nth_error_None. rewrite <- L. apply nth_error_None. auto.
Qed.

Lemma c45_count : forall sha1 p cwd ih d s, reached sha1 p cwd ih d s ->
  lenN (ta_peers (sy_actor s)) = lenN (found_peers (handled (sy_trace s))).
Proof. intros sha1 p cwd ih d s R. destruct (c45 _ _ _ _ _ _ R) as [E _]. unfold lenN. rewrite <- E, map_length. auto. Qed.

(** ** C43: when downloading starts *)

Lemma split_app : forall A (x : A) l1 l2 a b, l1 ++ l2 = a ++ x :: b ->
  (exists b', l1 = a ++ x :: b') \/ (exists a', a = l1 ++ a' /\ l2 = a' ++ x :: b).
Proof.
  induction l1 as [|y l1 IH]; intros l2 a b H; [right; exists a; auto|].
  destruct a as [|z a]; cbn in H; injection H as -> H.
  - left. exists l1. auto.
  - destruct (IH l2 a b H) as [(b' & ->)|(a' & -> & ->)]; [left; exists b'; auto|right; exists a'; auto].
Qed.

Lemma c43 : forall sha1 p cwd ih d s, reached sha1 p cwd ih d s ->
  forall a r b, sy_trace s = a ++ Sent (ToConnections r) :: b -> (10 < lenN (found_peers (handled a)))%N.
Proof.
  intros sha1 p cwd ih d. refine (reached_ind sha1 p cwd ih d _ _ _); [intros [|] r b H; discriminate|].
  intros s o R OK IH a r b E. pose proof (reached_step _ _ _ _ _ _ _ R OK) as R'.
  destruct (step_trace sha1 p cwd s o) as [(ET & EA)|(k & found & shuffle & m & a0 & es & EO & D & Hm & EH & ET & EA & _)].
  - rewrite ET in E. eauto.
  - rewrite ET in E. destruct (split_app _ _ _ _ _ _ E) as [(b' & E1)|(a' & -> & E2)]; [eauto|].
    destruct a' as [|h a']; [discriminate|]. injection E2 as <- E2.
    assert (N : requested (sy_trace (sys_step sha1 p cwd s o)) <> []).
    { rewrite ET, trace_app_requested. intros X. apply app_eq_nil in X as [_ X].
      rewrite <- (requested_sent m es) in X. rewrite E2 in X. unfold requested in X. cbn [flat_map] in X.
      rewrite flat_map_app in X. apply app_eq_nil in X as [_ X]. apply app_eq_nil in X as [_ X]. discriminate. }
    destruct (begun _ _ _ _ _ _ R' N) as [BI (i & EI)].
    pose proof (inv_reached _ _ _ _ _ _ R') as I. unfold inv in I. rewrite EI in I.
    destruct I as (_ & _ & n & files & q & lost & _ & _ & _ & _ & _ & _ & II & _). destruct (II BI) as (P & _).
    rewrite (c45_count _ _ _ _ _ _ R'), ET, trace_app_handled in P.
    replace (handled (sy_trace s ++ Handled m :: a')) with (handled (sy_trace s) ++ [m]); [auto|].
    unfold handled. rewrite flat_map_app. cbn [flat_map app]. f_equal. f_equal.
    clear - E2. revert es E2. induction a' as [|h t IH]; intros [|e es] E2; auto; try discriminate.
    injection E2 as <- E2. cbn. eauto.
Qed.

Lemma found_removed : forall k l m, nth_error l k = Some m ->
  List.length (found_peers l) = (List.length (found_peers [m]) + List.length (found_peers (remove_nth k l)))%nat.
Proof.
  intros k l m H. apply remove_nth_perm in H. unfold found_peers.
  apply (Permutation_flat_map (fun m => match m with PeerFound ep => [ep] | _ => [] end)) in H.
  apply Permutation_length in H. rewrite H. change (m :: remove_nth k l) with ([m] ++ remove_nth k l).
  rewrite flat_map_app, app_length. auto.
Qed.

Lemma found_bound : forall sha1 p cwd ih d ops, 
  let s := sys_run sha1 p cwd (sys_init ih d) ops in
  (List.length (found_peers (handled (sy_trace s))) + List.length (found_peers (sy_mail s)) <= List.length (peer_reports ops))%nat.
Proof.
  intros sha1 p cwd ih d. induction ops as [|o ops IH] using rev_ind; [cbn; lia|]. cbn zeta in *.
  unfold sys_run in *. rewrite fold_left_app. cbn [fold_left]. unfold peer_reports in *. rewrite flat_map_app, app_length.
  set (s := fold_left (sys_step sha1 p cwd) ops (sys_init ih d)) in *.
  destruct o as [ep|k found shuffle| |k net pid fuel|]; cbn [sys_step flat_map app List.length].
  - cbn [sy_trace sy_mail]. rewrite found_app, app_length. cbn [found_peers flat_map app List.length]. lia.
  - destruct (sy_dead s) eqn:D; [lia|]. destruct (nth_error (sy_mail s) k) as [m|] eqn:Hm; [|lia].
    pose proof (found_removed _ _ _ Hm) as FR.
    destruct (handle p found shuffle (sy_actor s) m) as [[a es]| |]; cbn [sy_trace sy_mail]; [|lia|lia].
    rewrite trace_app_handled, found_app, app_length. lia.
  - destruct (sy_queue s); [lia|]. destruct (List.length (sy_working s) <? sy_workers s)%nat; cbn [sy_trace sy_mail]; lia.
  - destruct (nth_error (sy_working s) k) as [r|]; [|lia].
    destruct (download sha1 p fuel net pid (rq_endpoint r) (rq_info r) (rq_idx r)) as [[|]| |]; cbn [sy_trace sy_mail];
      rewrite ?found_app, ?app_length; cbn [found_peers flat_map app List.length]; lia.
  - destruct (sy_writer_dead s); [lia|]. destruct (sy_writer s); [lia|].
    destruct (write p cwd (sy_disk s) (rd_piece p0) (rd_idx p0) (rd_files p0) (rd_piece_length p0)); cbn [sy_trace sy_mail]; lia.
Qed.

Lemma c43_few : forall sha1 p cwd ih d ops, Forall op_ok ops -> (lenN (peer_reports ops) <= 10)%N ->
  let s := sys_run sha1 p cwd (sys_init ih d) ops in
  requested (sy_trace s) = [] /\ completed s = [] /\ sy_disk s = d.
Proof.
  intros sha1 p cwd ih d ops F L. cbn zeta. pose proof (found_bound sha1 p cwd ih d ops) as B. cbn zeta in B.
  assert (R : reached sha1 p cwd ih d (sys_run sha1 p cwd (sys_init ih d) ops)) by (exists ops; auto).
  set (s := sys_run sha1 p cwd (sys_init ih d) ops) in *. clearbody s.
  assert (RQ : requested (sy_trace s) = []).
  { destruct (requested (sy_trace s)) as [|r t] eqn:E; [auto|]. exfalso.
    assert (N : requested (sy_trace s) <> []) by congruence.
    destruct (begun _ _ _ _ _ _ R N) as [BI (i & EI)].
    pose proof (inv_reached _ _ _ _ _ _ R) as I. unfold inv in I. rewrite EI in I.
    destruct I as (_ & _ & n & files & q & lost & _ & _ & _ & _ & _ & _ & II & _). destruct (II BI) as (P & _).
    rewrite (c45_count _ _ _ _ _ _ R) in P. unfold lenN in *. lia. }
  split; [auto|].
  assert (NI : ta_initiated (sy_actor s) = false).
  { destruct (ta_initiated (sy_actor s)) eqn:BI; [|auto]. exfalso.
    pose proof (inv_reached _ _ _ _ _ _ R) as I. unfold inv in I. destruct (ta_info (sy_actor s)) as [i|] eqn:EI.
    - destruct I as (_ & _ & n & files & q & lost & _ & _ & _ & _ & _ & _ & II & _). destruct (II BI) as (P & _).
      rewrite (c45_count _ _ _ _ _ _ R) in P. unfold lenN in *. lia.
    - destruct I as (_ & E & _). congruence. }
  assert (CO : completed s = []).
  { pose proof (inv_reached _ _ _ _ _ _ R) as I. unfold inv in I. destruct (ta_info (sy_actor s)) as [i|] eqn:EI.
    - destruct I as (_ & _ & n & files & q & lost & _ & _ & _ & _ & _ & X & _). destruct (X NI) as (_ & C & _). auto.
    - destruct I as (_ & _ & _ & _ & _ & E & _). unfold completed. rewrite E. auto. }
  split; [auto|].
  assert (G : forall s, reached sha1 p cwd ih d s -> to_writer (sy_trace s) = [] -> sy_disk s = d).
  { refine (reached_ind sha1 p cwd ih d _ _ _); [auto|]. intros s1 o R1 OK IH E.
    destruct (step_trace sha1 p cwd s1 o) as [(ET & EA)|(k & found & shuffle & m & a & es & -> & D & Hm & EH & ET & EA & EM & EW & EQ & EK & ED & EWD & EWK)].
    - rewrite ET in E. destruct (is_write o) as [->|NW].
      + cbn [sys_step]. destruct (sy_writer_dead s1); [auto|]. destruct (writer_suffix _ _ _ _ _ _ R1) as (done & X).
        rewrite E in X. symmetry in X. apply app_eq_nil in X as [_ X]. rewrite X. auto.
      + destruct (step_writer_same sha1 p cwd s1 o NW ET EA) as (_ & ED & _). rewrite ED. auto.
    - rewrite ED. apply IH. rewrite ET, trace_app_writer in E. apply app_eq_nil in E as [E _]. auto. }
  apply G; auto. unfold completed in CO. apply map_eq_nil in CO. auto.
Qed.

Lemma handle_requests : forall p found shuffle a m a' es r, handle p found shuffle a m = Ret (a', es) ->
  (forall k l, Permutation (shuffle k l) l) ->
  In (ToConnections r) es -> ta_info a = Some (rq_info r) /\
  match m with
  | PeerFound _ | PieceDownloadFailed _ _ => exists l, Permutation l (ta_peers a') /\ find_suitable_peer l = Ret (rq_endpoint r)
  | PieceDownloadSuccessfull ep _ _ => rq_endpoint r = ep
  end.
Proof.
  intros p found shuffle a m a' es r H SH I. destruct m as [ep|ep piece idx|ep idx]; cbn [handle] in *.
  - unfold handle_peer_found in H. destruct (ta_info a) as [i|] eqn:EI.
    + destruct ((10 <? lenN (ta_peers a ++ [apeer_new ep]))%N && negb (ta_initiated a)).
      * apply obind_ret in H as (q & _ & H). apply obind_ret in H as ([[q' ini] es'] & HI & H). injection H as <- <-. cbn [ta_peers].
        assert (G : forall rounds k q b q' ini' es', initial_requests rounds k shuffle i (ta_peers a ++ [apeer_new ep]) q b = Ret (q', ini', es') ->
          In (ToConnections r) es' -> rq_info r = i /\ exists l, Permutation l (ta_peers a ++ [apeer_new ep]) /\ find_suitable_peer l = Ret (rq_endpoint r)).
        { clear - SH. induction rounds as [|n IH]; intros k q b q' ini' es' H I; cbn [initial_requests] in H.
          - injection H as _ _ <-. contradiction.
          - apply obind_ret in H as (e & HE & H). destruct (pool_pop q) as [[x|] q0].
            + apply obind_ret in H as ([[q1 i1] es1] & HR & H). injection H as _ _ <-. destruct I as [I|I]; [|eauto].
              injection I as <-. cbn. split; [auto|]. exists (shuffle k (ta_peers a ++ [apeer_new ep])). auto.
            + eauto. }
        destruct (G _ _ _ _ _ _ _ HI I) as [-> X]. auto.
      * injection H as _ <-. contradiction.
    + exfalso. apply obind_ret in H as ([i|] & _ & H).
      * apply obind_ret in H as (? & _ & H). apply obind_ret in H as (? & _ & H). injection H as _ <-. contradiction.
      * injection H as _ <-. contradiction.
  - unfold handle_success in H. apply obind_ret in H as (i & HI & H). apply obind_ret in H as (f & _ & H).
    apply obind_ret in H as (q & _ & H). destruct (ta_info a); [|discriminate]. injection HI as ->.
    destruct (pool_pop q) as [[x|] q']; injection H as _ <-; destruct I as [I|I]; try discriminate; [|contradiction].
    destruct I as [I|[]]. injection I as <-. auto.
  - unfold handle_failed in H. apply obind_ret in H as (q & _ & H). apply obind_ret in H as (e & HE & H).
    destruct (pool_pop (pool_insert q idx)) as [[n|] q'].
    + apply obind_ret in H as (i & HI & H). destruct (ta_info a); [|discriminate]. injection HI as ->. injection H as <- <-.
      destruct I as [I|[]]. injection I as <-. cbn. split; [auto|]. eauto.
    + injection H as _ <-. contradiction.
Qed.

Lemma c43_metadata : forall sha1 p cwd s o ev r, op_ok o ->
  sy_trace (sys_step sha1 p cwd s o) = sy_trace s ++ ev -> In (Sent (ToConnections r)) ev ->
  ta_info (sy_actor s) = Some (rq_info r).
Proof.
  intros sha1 p cwd s o ev r OK E I.
  destruct (step_trace sha1 p cwd s o) as [(ET & EA)|(k & found & shuffle & m & a & es & -> & D & Hm & EH & ET & _)]; rewrite E in ET.
  - assert (ev = []) by (apply (app_inv_head (sy_trace s)); rewrite app_nil_r; auto). subst. contradiction.
  - apply app_inv_head in ET. subst ev. destruct I as [I|I]; [discriminate|]. apply in_map_iff in I as (e & X & I). injection X as ->.
    eapply handle_requests; eauto.
Qed.

(** ** C44: choice of peers *)

Lemma c44 : forall known shuffled, Permutation shuffled known ->
  match find_suitable_peer shuffled with
  | Ret ep => exists x, In x known /\ ap_endpoint x = ep /\
      ((exists y, In y known /\ (ap_failed y < 2)%N) -> (ap_failed x < 2)%N) /\
      ((exists y, In y known /\ (ap_failed y < 4)%N) -> (ap_failed x < 4)%N)
  | Panic => known = []
  | OutOfFuel => False
  end.
Proof.
  intros known sh P. unfold find_suitable_peer.
  assert (F : forall b, find (fun x => (ap_failed x <? b)%N) sh = None -> ~ exists y, In y known /\ (ap_failed y < b)%N).
  { intros b H (y & I & L). apply Permutation_sym in P. pose proof (find_none _ _ H y (Permutation_in y P I)) as X.
    cbn in X. apply N.ltb_ge in X. lia. }
  destruct (find (fun x => (ap_failed x <? 2)%N) sh) as [x|] eqn:A.
  - apply find_found in A as [I L]. apply N.ltb_lt in L. exists x. split; [eapply Permutation_in; eauto|]. split; [auto|]. split; intros; lia.
  - specialize (F 2%N A) as F2. destruct (find (fun x => (ap_failed x <? 4)%N) sh) as [x|] eqn:B.
    + apply find_found in B as [I L]. apply N.ltb_lt in L. exists x. split; [eapply Permutation_in; eauto|]. split; [auto|]. split; [contradiction|intros; lia].
    + specialize (F 4%N B) as F4. destruct sh as [|x sh].
      * apply Permutation_nil in P. auto.
      * exists x. split; [apply (Permutation_in x P); cbn; auto|]. split; [auto|]. split; contradiction.
Qed.

Lemma c44_safe : forall sha1 p cwd ih d s i, reached sha1 p cwd ih d s -> ta_info (sy_actor s) = Some i -> sy_dead s = false.
Proof.
  intros sha1 p cwd ih d s i R E. apply inv_reached in R. unfold inv in R. rewrite E in R. tauto.
Qed.

Definition mail_from (m : tmsg) : list bytes :=
  match m with PeerFound _ => [] | PieceDownloadSuccessfull ep _ _ | PieceDownloadFailed ep _ => [ep] end.

Lemma note_endpoints : forall ms m ep, In ep (map ap_endpoint ms) -> In ep (map ap_endpoint (note ms m)).
Proof.
  intros ms m ep H. destruct m as [e|e pc i|e i]; cbn [note].
  - rewrite map_app. apply in_or_app. auto.
  - unfold update_success. rewrite map_map. apply in_map_iff in H as (x & <- & H). apply in_map_iff. exists x. split; [|auto].
    destruct (bytes_eqb (ap_endpoint x) e); auto.
  - unfold update_failed. rewrite map_map. apply in_map_iff in H as (x & <- & H). apply in_map_iff. exists x. split; [|auto].
    destruct (bytes_eqb (ap_endpoint x) e); auto.
Qed.

(** Everything that is on its way concerns a reported peer. *)
Lemma known_endpoints : forall sha1 p cwd ih d s, reached sha1 p cwd ih d s ->
  forall ep, In ep (map rq_endpoint (sy_queue s ++ sy_working s ++ requested (sy_trace s)) ++ flat_map mail_from (sy_mail s)) ->
  In ep (map ap_endpoint (ta_peers (sy_actor s))).
Proof.
  intros sha1 p cwd ih d. refine (reached_ind sha1 p cwd ih d _ _ _); [intros ep []|]. intros s o R OK IH ep H.
  rewrite !map_app, !in_app_iff in H. assert (IH' : forall ep, In ep (map rq_endpoint (sy_queue s)) \/ In ep (map rq_endpoint (sy_working s)) \/
    In ep (map rq_endpoint (requested (sy_trace s))) \/ In ep (flat_map mail_from (sy_mail s)) -> In ep (map ap_endpoint (ta_peers (sy_actor s)))).
  { intros e X. apply IH. rewrite !map_app, !in_app_iff. tauto. }
  clear IH. destruct o as [e|k found shuffle| |k net pid fuel|]; cbn [sys_step] in *.
  - cbn [sy_queue sy_working sy_mail sy_trace sy_actor] in *. rewrite flat_map_app, in_app_iff in H. cbn in H. apply IH'. tauto.
  - destruct (sy_dead s) eqn:D; [apply IH'; tauto|]. destruct (nth_error (sy_mail s) k) as [m|] eqn:Hm; [|apply IH'; tauto].
    assert (MR : forall e, In e (flat_map mail_from (remove_nth k (sy_mail s))) \/ In e (mail_from m) -> In e (flat_map mail_from (sy_mail s))).
    { intros e X. apply remove_nth_perm in Hm. apply (Permutation_flat_map mail_from) in Hm. apply (Permutation_in e (Permutation_sym Hm)).
      cbn [flat_map]. apply in_app_iff. tauto. }
    destruct (handle p found shuffle (sy_actor s) m) as [[a es]| |] eqn:EH;
      cbn [sy_queue sy_working sy_mail sy_trace sy_actor] in *; [|apply IH'; specialize (MR ep); tauto|apply IH'; tauto].
    rewrite (handle_peers _ _ _ _ _ _ _ EH). rewrite trace_app_requested, !map_app, !in_app_iff in H.
    assert (N : In ep (map rq_endpoint (requests_of es)) -> In ep (map ap_endpoint (note (ta_peers (sy_actor s)) m))).
    { intros X. apply in_map_iff in X as (r & <- & X). unfold requests_of in X. apply in_flat_map in X as (ef & X & Y).
      destruct ef as [|r']; [contradiction|]. destruct Y as [->|[]].
      destruct (handle_requests _ _ _ _ _ _ _ _ EH OK X) as [_ Z]. rewrite <- (handle_peers _ _ _ _ _ _ _ EH).
      destruct m as [e|e pc i|e i].
      - destruct Z as (l & PL & FS). pose proof (c44 _ _ PL) as C. rewrite FS in C. destruct C as (x & I & <- & _). apply in_map. auto.
      - rewrite Z, (handle_peers _ _ _ _ _ _ _ EH). apply note_endpoints. apply IH'. right. right. right. apply MR. right. cbn. auto.
      - destruct Z as (l & PL & FS). pose proof (c44 _ _ PL) as C. rewrite FS in C. destruct C as (x & I & <- & _). apply in_map. auto. }
    destruct H as [[[H|H]|[H|[H|H]]]|H]; auto; apply note_endpoints; apply IH'; auto. right. right. right. apply MR. auto.
  - destruct (sy_queue s) as [|r rest] eqn:EQ; [rewrite EQ in H; apply IH'; cbn in *; tauto|].
    destruct (List.length (sy_working s) <? sy_workers s)%nat; cbn [sy_queue sy_working sy_mail sy_trace sy_actor] in *; [|rewrite EQ in H; apply IH'; cbn in *; tauto].
    rewrite map_app, in_app_iff in H. apply IH'. cbn in *. tauto.
  - destruct (nth_error (sy_working s) k) as [r|] eqn:Hr; [|apply IH'; tauto].
    assert (MR : In (rq_endpoint r) (map rq_endpoint (sy_working s))) by (apply in_map; eapply nth_error_In; eauto).
    assert (MR' : In ep (map rq_endpoint (remove_nth k (sy_working s))) -> In ep (map rq_endpoint (sy_working s))).
    { intros X. apply remove_nth_perm in Hr. apply (Permutation_map rq_endpoint) in Hr. apply (Permutation_in ep (Permutation_sym Hr)). right; auto. }
    destruct (download sha1 p fuel net pid (rq_endpoint r) (rq_info r) (rq_idx r)) as [[|]| |]; cbn [sy_queue sy_working sy_mail sy_trace sy_actor] in *;
      rewrite ?flat_map_app, ?in_app_iff in H; cbn [flat_map mail_from app In] in H; [| | |apply IH'; tauto];
      destruct H as [[H|[H|H]]|H]; [apply IH'; tauto|apply IH'; tauto|apply IH'; tauto| ..]; try (apply IH'; tauto).
    + destruct H as [H|[<-|[]]]; apply IH'; tauto.
    + destruct H as [H|[<-|[]]]; apply IH'; tauto.
  - destruct (sy_writer_dead s); [apply IH'; tauto|]. destruct (sy_writer s) as [|r rest]; [apply IH'; tauto|].
    destruct (write p cwd (sy_disk s) (rd_piece r) (rd_idx r) (rd_files r) (rd_piece_length r)); cbn [sy_queue sy_working sy_mail sy_trace sy_actor] in *; apply IH'; tauto.
Qed.

Lemma c44_known : forall sha1 p cwd ih d s r, reached sha1 p cwd ih d s -> In r (requested (sy_trace s)) ->
  In (rq_endpoint r) (found_peers (handled (sy_trace s))).
Proof.
  intros sha1 p cwd ih d s r R I. destruct (c45 _ _ _ _ _ _ R) as [E _]. rewrite <- E.
  apply (known_endpoints _ _ _ _ _ _ R). apply in_or_app. left. apply in_map. rewrite !in_app_iff. auto.
Qed.

(** ** C46: progress *)

Lemma sumN_app : forall a b, sumN (a ++ b) = (sumN a + sumN b)%N.
Proof. unfold sumN. induction a as [|x a IH]; intros b; cbn; [auto|]. rewrite IH. lia. Qed.

Lemma weight_removed : forall k l m, nth_error l k = Some m ->
  sumN (map mail_weight l) = (mail_weight m + sumN (map mail_weight (remove_nth k l)))%N.
Proof.
  induction k as [|k IH]; intros [|y l] m H; try discriminate; cbn [nth_error remove_nth map] in *.
  - injection H as ->. reflexivity.
  - specialize (IH l m H). unfold sumN in *. cbn. lia.
Qed.

Lemma lenN_app' : forall A (a b : list A), lenN (a ++ b) = (lenN a + lenN b)%N.
Proof. intros. unfold lenN. rewrite app_length. lia. Qed.

Lemma c46_step_inv : forall sha1 p cwd d s o i, inv sha1 p d s -> op_ok o -> ta_info (sy_actor s) = Some i ->
  let s' := sys_step sha1 p cwd s o in
  s' = s \/ (work s' < work s)%N \/
  (exists ep, o = OPeer ep) /\ work s' = (work s + 1)%N \/
  fails sha1 p s o = true /\ work s' = (work s + 2)%N.
Proof.
  intros sha1 p cwd d s o i R OK EI. cbn zeta. pose proof R as I. unfold inv in I. rewrite EI in I.
  destruct I as (D & W5 & n & files & q & lost & PO & GF & EP & PM & LW & NI & II & FQ & FM & FR & FT).
  destruct o as [ep|k found shuffle| |k net pid fuel|]; cbn [sys_step fails].
  - right. right. left. split; [eauto|]. unfold work, waiting. cbn [sy_actor sy_queue sy_working sy_mail sy_writer].
    rewrite map_app, sumN_app. cbn. lia.
  - rewrite D. destruct (nth_error (sy_mail s) k) as [m|] eqn:Hm; [|auto].
    pose proof (answers_initiated sha1 p d s i k m R EI Hm) as AI.
    pose proof (weight_removed _ _ _ Hm) as WR.
    destruct m as [ep|ep piece idx|ep idx]; cbn [handle mail_weight answer_for] in *.
    + unfold handle_peer_found. rewrite EI.
      destruct ((10 <? lenN (ta_peers (sy_actor s) ++ [apeer_new ep]))%N && negb (ta_initiated (sy_actor s))).
      * rewrite EP. cbn [unwrap obind].
        destruct (initial_spec 5 0 shuffle i (ta_peers (sy_actor s) ++ [apeer_new ep]) q (ta_initiated (sy_actor s)) OK) as (es & -> & RE & RQ & RF);
          [intros X; apply app_eq_nil in X as [_ X]; discriminate|]. cbn [obind]. right. left.
        unfold work, waiting. cbn [sy_actor ta_pool sy_queue sy_working sy_mail sy_writer]. rewrite EP, WR, RE, app_nil_r, lenN_app'.
        apply (f_equal (@List.length N)) in RQ. rewrite map_length in RQ.
        pose proof (f_equal (@List.length N) (firstn_skipn 5 q)) as FS. rewrite app_length in FS. unfold lenN. lia.
      * right. left. unfold work, waiting. cbn [sy_actor ta_pool sy_queue sy_working sy_mail sy_writer requests_of readies_of flat_map].
        rewrite EP, WR, !app_nil_r. lia.
    + unfold handle_success. rewrite EI. cbn [unwrap obind]. rewrite GF. cbn [unwrap_res obind]. rewrite EP. cbn [unwrap obind].
      right. left. destruct q as [|y q]; cbn [pool_pop]; unfold work, waiting; cbn [sy_actor ta_pool sy_queue sy_working sy_mail sy_writer requests_of readies_of flat_map app];
        rewrite EP, WR, ?app_nil_r, !lenN_app'; unfold lenN; cbn [List.length]; lia.
    + specialize (AI ltac:(discriminate)). destruct (II AI) as (PE & _ & _).
      unfold handle_failed. rewrite EP. cbn [unwrap obind].
      destruct (suitable_nonempty (shuffle 0%nat) (update_failed (ta_peers (sy_actor s)) ep) (OK _ _)) as (ep' & -> & _).
      { unfold update_failed. intros X. apply map_eq_nil in X. rewrite X in PE. cbn in PE. lia. }
      cbn [obind]. unfold pool_insert. pose proof (app_length q [idx]) as LQ.
      destruct (q ++ [idx]) as [|y q'] eqn:EQ; [destruct q; discriminate|]. cbn [pool_pop]. rewrite EI. cbn [unwrap obind].
      right. left. unfold work, waiting; cbn [sy_actor ta_pool sy_queue sy_working sy_mail sy_writer requests_of readies_of flat_map app];
        rewrite EP, WR, ?app_nil_r, !lenN_app'; unfold lenN; cbn [List.length] in *; lia.
  - destruct (sy_queue s) as [|r rest] eqn:EQ; [auto|]. destruct (List.length (sy_working s) <? sy_workers s)%nat; [|auto].
    right. left. unfold work, waiting. cbn [sy_actor sy_queue sy_working sy_mail sy_writer]. rewrite EQ, lenN_app'. unfold lenN. cbn [List.length]. lia.
  - destruct (nth_error (sy_working s) k) as [r|] eqn:Hr; [|auto]. pose proof (removed_len _ _ _ _ Hr) as RL.
    destruct (download sha1 p fuel net pid (rq_endpoint r) (rq_info r) (rq_idx r)) as [[piece|e]| |]; [| | |auto];
      unfold work, waiting; cbn [sy_actor sy_queue sy_working sy_mail sy_writer]; rewrite map_app, sumN_app; unfold lenN; cbn [map sumN fold_right mail_weight]; rewrite RL.
    + right. left. lia.
    + right. right. right. split; [auto|]. lia.
    + right. left. lia.
  - destruct (sy_writer_dead s); [auto|]. destruct (sy_writer s) as [|r rest] eqn:EW; [auto|].
    destruct (write p cwd (sy_disk s) (rd_piece r) (rd_idx r) (rd_files r) (rd_piece_length r)); [| |auto];
      right; left; unfold work, waiting; cbn [sy_actor sy_queue sy_working sy_mail sy_writer]; rewrite EW; unfold lenN; cbn [List.length]; lia.
Qed.

Lemma c46_step : forall sha1 p cwd ih d s o i, reached sha1 p cwd ih d s -> op_ok o -> ta_info (sy_actor s) = Some i ->
  let s' := sys_step sha1 p cwd s o in
  s' = s \/ (work s' < work s)%N \/
  (exists ep, o = OPeer ep) /\ work s' = (work s + 1)%N \/
  fails sha1 p s o = true /\ work s' = (work s + 2)%N.
Proof. intros sha1 p cwd ih d s o i R. apply (c46_step_inv sha1 p cwd d s o i (inv_reached _ _ _ _ _ _ R)). Qed.

Lemma step_info : forall sha1 p cwd ih d s o i, reached sha1 p cwd ih d s -> ta_info (sy_actor s) = Some i ->
  ta_info (sy_actor (sys_step sha1 p cwd s o)) = Some i.
Proof.
  intros sha1 p cwd ih d s o i R EI.
  destruct (step_trace sha1 p cwd s o) as [(ET & EA)|(k & found & shuffle & m & a & es & -> & D & Hm & EH & ET & EA & _)].
  - rewrite EA. auto.
  - rewrite EA. destruct (handle_ready _ _ _ _ _ _ _ EH) as [[X|X] _]; congruence.
Qed.

Lemma c46_bound : forall sha1 p cwd ih d i ops s, reached sha1 p cwd ih d s -> Forall op_ok ops -> ta_info (sy_actor s) = Some i ->
  no_idle_step sha1 p cwd s ops ->
  (lenN ops <= work s + 2 * lenN (peer_reports ops) + 3 * failed_downloads sha1 p cwd s ops)%N.
Proof.
  intros sha1 p cwd ih d i. induction ops as [|o t IH]; intros s R F EI NI; [cbn; lia|].
  inversion F; subst. destruct NI as [N1 N2]. cbn [failed_downloads].
  specialize (IH _ (reached_step _ _ _ _ _ _ _ R H1) H2 (step_info _ _ _ _ _ _ o _ R EI) N2).
  assert (LO : lenN (o :: t) = (1 + lenN t)%N) by (unfold lenN; cbn [List.length]; lia).
  assert (LP : lenN (peer_reports (o :: t)) = ((match o with OPeer _ => 1 | _ => 0 end) + lenN (peer_reports t))%N).
  { unfold peer_reports. cbn [flat_map]. rewrite lenN_app'. destruct o; reflexivity. }
  rewrite LO, LP. destruct (c46_step _ _ _ _ _ _ _ _ R H1 EI) as [X|[X|[[(ep & ->) X]|[X Y]]]]; [contradiction|destruct (fails sha1 p s o); lia|destruct (fails sha1 p s (OPeer ep)); lia|rewrite X; lia].
Qed.

Lemma flight_enabled : forall sha1 p cwd ih d s, reached sha1 p cwd ih d s -> in_flight s <> [] ->
  sy_mail s <> [] \/ sy_working s <> [] \/ (sy_queue s <> [] /\ (List.length (sy_working s) < sy_workers s)%nat).
Proof.
  intros sha1 p cwd ih d s R N. destruct (c40 _ _ _ _ _ _ R) as [L _].
  destruct (sy_mail s) eqn:EM; [|left; discriminate]. destruct (sy_working s) eqn:EW; [|right; left; discriminate].
  right. right. destruct (sy_queue s) as [|r q] eqn:EQ.
  - exfalso. apply N. unfold in_flight. rewrite EM, EW, EQ. auto.
  - split; [discriminate|]. rewrite in_flight_len, EQ in L. cbn in *. lia.
Qed.

Lemma c46_flight : forall sha1 p cwd ih d s i n, reached sha1 p cwd ih d s -> requested (sy_trace s) <> [] ->
  ta_info (sy_actor s) = Some i -> pieces_of p i n -> sy_workers s = 5%nat -> ~ Permutation (completed s) (numbers n) -> in_flight s <> [].
Proof.
  intros sha1 p cwd ih d s i n R N EI PO W NC F. apply NC. eapply c41_done; eauto.
  destruct (c40 _ _ _ _ _ _ R) as [_ X]. apply X; auto. rewrite F, W. cbn. lia.
Qed.

Lemma initial_no_readies : forall shuffle i peers rounds q q' ini es j b,
  initial_requests rounds j shuffle i peers q b = Ret (q', ini, es) -> readies_of es = [].
Proof.
  intros shuffle i peers. induction rounds as [|r IH]; intros q q' ini es j b H; cbn [initial_requests] in H; [injection H as _ _ <-; auto|].
  apply obind_ret in H as (e & HE & H). destruct (pool_pop q) as [[x|] q0].
  - apply obind_ret in H as ([[q1 i1] es1] & HR & H). injection H as _ _ <-. cbn. eapply IH. exact HR.
  - eapply IH. exact H.
Qed.

Lemma completed_step : forall sha1 p cwd s o,
  completed (sys_step sha1 p cwd s o) = completed s \/
  exists k found shuffle ep piece idx, o = OHandle k found shuffle /\ nth_error (sy_mail s) k = Some (PieceDownloadSuccessfull ep piece idx) /\
    completed (sys_step sha1 p cwd s o) = completed s ++ [idx].
Proof.
  intros sha1 p cwd s o. unfold completed.
  destruct (step_trace sha1 p cwd s o) as [(ET & EA)|(k & found & shuffle & m & a & es & -> & D & Hm & EH & ET & EA & _)].
  - rewrite ET. auto.
  - rewrite ET, trace_app_writer, map_app. destruct m as [ep|ep piece idx|ep idx].
    + left. cbn [handle] in EH. unfold handle_peer_found in EH. replace (readies_of es) with (@nil piece_ready); [apply app_nil_r|].
      destruct (ta_info (sy_actor s)) as [i|].
      * destruct ((10 <? lenN (ta_peers (sy_actor s) ++ [apeer_new ep]))%N && negb (ta_initiated (sy_actor s))).
        -- apply obind_ret in EH as (q & _ & EH). apply obind_ret in EH as ([[q' ini] es'] & HI & EH). injection EH as _ <-.
           symmetry. eapply initial_no_readies. exact HI.
        -- injection EH as _ <-. auto.
      * apply obind_ret in EH as ([i|] & _ & EH).
        -- apply obind_ret in EH as (? & _ & EH). apply obind_ret in EH as (? & _ & EH). injection EH as _ <-. auto.
        -- injection EH as _ <-. auto.
    + right. exists k, found, shuffle, ep, piece, idx. split; [auto|]. split; [auto|]. f_equal.
      cbn [handle] in EH. unfold handle_success in EH. apply obind_ret in EH as (i & _ & EH). apply obind_ret in EH as (f & _ & EH).
      apply obind_ret in EH as (q & _ & EH). destruct (pool_pop q) as [[x|] q']; injection EH as _ <-; auto.
    + left. cbn [handle] in EH. unfold handle_failed in EH. replace (readies_of es) with (@nil piece_ready); [apply app_nil_r|].
      apply obind_ret in EH as (q & _ & EH). apply obind_ret in EH as (e & HE & EH).
      destruct (pool_pop (pool_insert q idx)) as [[x|] q'].
      * apply obind_ret in EH as (i & _ & EH). injection EH as _ <-. auto.
      * injection EH as _ <-. auto.
Qed.

(** Handling an answered success adds its piece. *)
Lemma success_counts : forall sha1 p cwd ih d s k found shuffle ep piece idx, reached sha1 p cwd ih d s -> (forall k l, Permutation (shuffle k l) l) ->
  nth_error (sy_mail s) k = Some (PieceDownloadSuccessfull ep piece idx) ->
  completed (sys_step sha1 p cwd s (OHandle k found shuffle)) = completed s ++ [idx].
Proof.
  intros sha1 p cwd ih d s k found shuffle ep piece idx R SH Hm.
  pose proof (inv_reached _ _ _ _ _ _ R) as I. unfold inv in I. destruct (ta_info (sy_actor s)) as [i|] eqn:EI.
  - destruct I as (D & W5 & n & files & q & lost & PO & GF & EP & _). cbn [sys_step]. rewrite D, Hm. cbn [handle].
    unfold handle_success. rewrite EI. cbn [unwrap obind]. rewrite GF. cbn [unwrap_res obind]. rewrite EP. cbn [unwrap obind].
    destruct (pool_pop q) as [[x|] q']; unfold completed; cbn [sy_trace]; rewrite trace_app_writer, map_app; auto.
  - destruct I as (E1 & E2 & E3 & E4 & E5 & _). pose proof (mail_removed_len _ _ _ Hm) as ML. rewrite E5 in ML. cbn in ML. lia.
Qed.

(** ** Everything can be finished *)

Lemma run_app : forall sha1 p cwd s a b, sys_run sha1 p cwd s (a ++ b) = sys_run sha1 p cwd (sys_run sha1 p cwd s a) b.
Proof. intros. unfold sys_run. apply fold_left_app. Qed.

Lemma reached_run : forall sha1 p cwd ih d ops s, reached sha1 p cwd ih d s -> Forall op_ok ops -> reached sha1 p cwd ih d (sys_run sha1 p cwd s ops).
Proof.
  intros sha1 p cwd ih d. induction ops as [|o t IH]; intros s R F; [auto|]. inversion F; subst. cbn. apply IH; [|auto]. apply reached_step; auto.
Qed.

Definition id_shuffle : nat -> list apeer -> list apeer := fun _ l => l.

(** Once the metadata is known every message can be handled. *)
Lemma handle_returns : forall sha1 p cwd ih d s m k i, reached sha1 p cwd ih d s -> ta_info (sy_actor s) = Some i ->
  nth_error (sy_mail s) k = Some m -> exists a es, handle p (Ret None) id_shuffle (sy_actor s) m = Ret (a, es).
Proof.
  intros sha1 p cwd ih d s m k i R EI Hm. assert (OK : forall k l, Permutation (id_shuffle k l) l) by (intros ? l; apply Permutation_refl).
  destruct (handle p (Ret None) id_shuffle (sy_actor s) m) as [[a es]| |] eqn:EH; [eauto| |]; exfalso.
  - assert (R' := reached_step _ _ _ _ _ _ (OHandle k (Ret None) id_shuffle) R OK).
    pose proof (step_info _ _ _ _ _ _ (OHandle k (Ret None) id_shuffle) _ R EI) as EI'.
    pose proof (c44_safe _ _ _ _ _ _ _ R' EI') as X. cbn [sys_step] in X. rewrite (c44_safe _ _ _ _ _ _ _ R EI), Hm, EH in X. discriminate.
  - destruct m as [ep|ep piece idx|ep idx]; cbn [handle] in EH.
    + pose proof (inv_reached _ _ _ _ _ _ R) as I. unfold inv in I. rewrite EI in I.
      destruct I as (D & W5 & n' & files & q & lost & PO' & GF & EP & _).
      unfold handle_peer_found in EH. rewrite EI in EH. destruct (_ && _); [|discriminate]. rewrite EP in EH. cbn [unwrap obind] in EH.
      destruct (initial_spec 5 0 id_shuffle i (ta_peers (sy_actor s) ++ [apeer_new ep]) q (ta_initiated (sy_actor s)) OK) as (es & E & _);
        [intros X; apply app_eq_nil in X as [_ X]; discriminate|]. rewrite E in EH. discriminate.
    + unfold handle_success in EH. destruct (ta_info (sy_actor s)); [|discriminate]. cbn [unwrap obind] in EH.
      destruct (get_files i0); [|discriminate]. cbn [unwrap_res obind] in EH. destruct (ta_pool (sy_actor s)); [|discriminate]. cbn [unwrap obind] in EH.
      destruct (pool_pop p0). discriminate.
    + unfold handle_failed in EH. destruct (ta_pool (sy_actor s)); [|discriminate]. cbn [unwrap obind] in EH.
      unfold find_suitable_peer in EH. destruct (find _ _); cbn [obind] in EH.
      * destruct (pool_pop _) as [[]]; [|discriminate]. destruct (ta_info (sy_actor s)); discriminate.
      * destruct (find _ _); cbn [obind] in EH.
        -- destruct (pool_pop _) as [[]]; [|discriminate]. destruct (ta_info (sy_actor s)); discriminate.
        -- destruct (id_shuffle _ _); [discriminate|]. cbn [obind] in EH. destruct (pool_pop _) as [[]]; [|discriminate]. destruct (ta_info (sy_actor s)); discriminate.
Qed.

(** Answers are handled, requests are started and downloads finish well: there is such a step that
    lowers the work, keeps the workers, and is no peer report. *)
Lemma good_step : forall sha1 p cwd ih d s i n, reached sha1 p cwd ih d s -> ta_info (sy_actor s) = Some i -> pieces_of p i n ->
  sy_workers s = 5%nat ->
  (forall ep idx, In ep (reported s) -> (idx < n)%N -> exists net pid fuel piece, download sha1 p fuel net pid ep i idx = Ret (Ok piece)) ->
  in_flight s <> [] ->
  exists o, op_ok o /\ (work (sys_step sha1 p cwd s o) < work s)%N /\ sy_workers (sys_step sha1 p cwd s o) = 5%nat /\
    (forall ep, o <> OPeer ep).
Proof.
  intros sha1 p cwd ih d s i n R EI PO W DL NF.
  destruct (flight_enabled _ _ _ _ _ _ R NF) as [M|[K|[Q L]]].
  - exists (OHandle 0 (Ret None) id_shuffle). assert (OK : op_ok (OHandle 0 (Ret None) id_shuffle)) by (intros k l; apply Permutation_refl).
    split; [auto|]. enough (G : (work (sys_step sha1 p cwd s (OHandle 0 (Ret None) id_shuffle)) < work s)%N /\
      sy_workers (sys_step sha1 p cwd s (OHandle 0 (Ret None) id_shuffle)) = 5%nat) by (destruct G; repeat split; auto; discriminate).
    destruct (c46_step _ _ _ _ _ _ _ _ R OK EI) as [X|[X|[[(ep & X) _]|[X _]]]]; try discriminate.
    + exfalso. destruct (sy_mail s) as [|m t] eqn:EM; [congruence|].
      apply (f_equal (fun st => List.length (sy_mail st))) in X. cbn [sys_step] in X. rewrite (c44_safe _ _ _ _ _ _ _ R EI), EM in X. cbn [nth_error] in X.
      destruct (handle_returns _ _ _ _ _ _ m 0 _ R EI ltac:(rewrite EM; reflexivity)) as (a & es & EH). rewrite EH in X.
      cbn [sy_mail remove_nth List.length] in X. lia.
    + split; [auto|]. cbn [sys_step]. destruct (sy_dead s); [auto|]. destruct (nth_error (sy_mail s) 0); [|auto].
      destruct (handle p (Ret None) id_shuffle (sy_actor s) t) as [[a es]| |]; auto.
  - destruct (sy_working s) as [|r t] eqn:EW; [congruence|].
    pose proof (inv_reached _ _ _ _ _ _ R) as I. unfold inv in I. rewrite EI in I.
    destruct I as (D & W5 & n' & files & q & lost & PO' & GF & EP & PM & LW & NI & II & FQ & FM & FR & FT).
    assert (n' = n) by (eapply pieces_of_unique; eauto). subst n'.
    assert (RI : rq_info r = i). { rewrite Forall_forall in FQ. apply FQ. rewrite EW. apply in_or_app. right. left. auto. }
    assert (RX : (rq_idx r < n)%N).
    { apply in_numbers. apply (Permutation_in _ PM). apply in_or_app. right. apply in_or_app. left.
      unfold in_flight. rewrite EW. apply in_or_app. right. left. auto. }
    assert (RE : In (rq_endpoint r) (reported s)).
    { unfold reported. rewrite found_app. apply in_or_app. left. rewrite <- (proj1 (c45 _ _ _ _ _ _ R)).
      apply (known_endpoints _ _ _ _ _ _ R). rewrite EW. apply in_or_app. left. apply in_map. apply in_or_app. right. apply in_or_app. left. left. auto. }
    destruct (DL (rq_endpoint r) (rq_idx r) RE RX) as (net & pid & fuel & piece & ED).
    exists (OFinish 0 net pid fuel). split; [exact Logic.I|]. cbn [sys_step]. rewrite EW. cbn [nth_error]. rewrite RI, ED.
    cbn [sy_workers]. split; [|split; [auto|discriminate]]. unfold work, waiting. cbn [sy_actor sy_queue sy_working sy_mail sy_writer remove_nth].
    rewrite EW, map_app, sumN_app. unfold lenN. cbn [List.length map mail_weight sumN fold_right]. lia.
  - destruct (sy_queue s) as [|r t] eqn:EQ; [congruence|]. exists OStart. split; [exact Logic.I|]. cbn [sys_step]. rewrite EQ.
    rewrite (proj2 (Nat.ltb_lt _ _) L). cbn [sy_workers]. split; [|split; [auto|discriminate]].
    unfold work, waiting. cbn [sy_actor sy_queue sy_working sy_mail sy_writer]. rewrite EQ, lenN_app'. unfold lenN. cbn [List.length]. lia.
Qed.

Lemma requested_step : forall sha1 p cwd s o, requested (sy_trace s) <> [] -> requested (sy_trace (sys_step sha1 p cwd s o)) <> [].
Proof.
  intros sha1 p cwd s o N. destruct (step_trace sha1 p cwd s o) as [(ET & EA)|(k & found & shuffle & m & a & es & -> & D & Hm & EH & ET & EA & _)].
  - rewrite ET. auto.
  - rewrite ET, trace_app_requested. intros X. apply app_eq_nil in X as [X _]. auto.
Qed.

Lemma reported_step : forall sha1 p cwd s o, (forall ep, o <> OPeer ep) -> incl (reported (sys_step sha1 p cwd s o)) (reported s).
Proof.
  intros sha1 p cwd s o NP ep H. unfold reported in *. rewrite found_app in *. apply in_app_iff in H. apply in_app_iff.
  destruct o as [e|k found shuffle| |k net pid fuel|]; cbn [sys_step] in *.
  - exfalso. eapply NP; eauto.
  - destruct (sy_dead s); [tauto|]. destruct (nth_error (sy_mail s) k) as [m|] eqn:Hm; [|tauto].
    assert (MR : forall e, In e (found_peers (remove_nth k (sy_mail s))) \/ In e (found_peers [m]) -> In e (found_peers (sy_mail s))).
    { intros e X. apply remove_nth_perm in Hm. apply (Permutation_flat_map (fun m => match m with PeerFound ep => [ep] | _ => [] end)) in Hm.
      apply (Permutation_in e (Permutation_sym Hm)). cbn [flat_map]. apply in_app_iff. unfold found_peers in X. cbn [flat_map] in X.
      rewrite app_nil_r in X. tauto. }
    destruct (handle p found shuffle (sy_actor s) m) as [[a es]| |]; cbn [sy_trace sy_mail] in H.
    + unfold handled in H. rewrite flat_map_app in H. cbn [flat_map] in H.
      assert (Z : flat_map (fun e => match e with Handled m => [m] | _ => [] end) (map Sent es) = []).
      { clear. induction es as [|x t IH]; [reflexivity|]. exact IH. }
      rewrite Z, app_nil_r, found_app in H. fold (handled (sy_trace s)) in H. rewrite in_app_iff in H.
      specialize (MR ep). tauto.
    + specialize (MR ep). tauto.
    + tauto.
  - destruct (sy_queue s); [tauto|]. destruct (_ <? _)%nat; tauto.
  - destruct (nth_error (sy_working s) k); [|tauto].
    destruct (download _ _ _ _ _ _ _ _) as [[|]| |]; cbn [sy_trace sy_mail] in H; [| | |tauto]; rewrite found_app in H;
      rewrite in_app_iff in H; cbn in H; tauto.
  - destruct (sy_writer_dead s); [tauto|]. destruct (sy_writer s); [tauto|]. destruct (write _ _ _ _ _ _ _); tauto.
Qed.

Lemma can_complete : forall sha1 p cwd ih d i n,
  pieces_of p i n ->
  forall w s, (work s <= w)%N -> reached sha1 p cwd ih d s -> requested (sy_trace s) <> [] -> ta_info (sy_actor s) = Some i ->
  sy_workers s = 5%nat ->
  (forall ep idx, In ep (reported s) -> (idx < n)%N -> exists net pid fuel piece, download sha1 p fuel net pid ep i idx = Ret (Ok piece)) ->
  exists ops, Forall op_ok ops /\ let s' := sys_run sha1 p cwd s ops in
    ta_info (sy_actor s') = Some i /\ sy_workers s' = 5%nat /\ waiting s' = [] /\ in_flight s' = [].
Proof.
  intros sha1 p cwd ih d i n PO w. induction w as [|w IH] using N.peano_ind; intros s L R RQ EI W DL.
  - destruct (in_flight s) as [|x t] eqn:F.
    + exists []. split; [constructor|]. cbn. split; [auto|]. split; [auto|]. split; [|auto].
      destruct (c40 _ _ _ _ _ _ R) as [_ X]. apply X; auto. rewrite F, W. cbn. lia.
    + destruct (good_step _ _ _ _ _ _ _ _ R EI PO W DL ltac:(congruence)) as (o & _ & X & _). lia.
  - destruct (in_flight s) as [|x t] eqn:F.
    + exists []. split; [constructor|]. cbn. split; [auto|]. split; [auto|]. split; [|auto].
      destruct (c40 _ _ _ _ _ _ R) as [_ X]. apply X; auto. rewrite F, W. cbn. lia.
    + destruct (good_step _ _ _ _ _ _ _ _ R EI PO W DL ltac:(congruence)) as (o & OK & X & W' & NP).
      destruct (IH (sys_step sha1 p cwd s o) ltac:(lia) (reached_step _ _ _ _ _ _ _ R OK) (requested_step _ _ _ _ _ RQ) (step_info _ _ _ _ _ _ o _ R EI) W'
        (fun ep idx H => DL ep idx (reported_step _ _ _ _ _ NP _ H)))
        as (ops & FO & G). exists (o :: ops). split; [constructor; auto|]. exact G.
Qed.

Lemma can_drain : forall sha1 p cwd ih d i files T, describes sha1 i files T -> disk_ready cwd files d ->
  forall w s, List.length (sy_writer s) = w -> reached sha1 p cwd ih d s -> ta_info (sy_actor s) = Some i ->
  sy_workers s = 5%nat -> waiting s = [] -> in_flight s = [] ->
  collision sha1 (i_piece_length i) T s \/
  let s' := sys_run sha1 p cwd s (repeat OWrite w) in
    ta_info (sy_actor s') = Some i /\ sy_workers s' = 5%nat /\ waiting s' = [] /\ in_flight s' = [] /\ sy_writer s' = [] /\
    sy_trace s' = sy_trace s.
Proof.
  intros sha1 p cwd ih d i files T DE DR. induction w as [|w IH]; intros s L R EI W Q F.
  - right. cbn. repeat split; auto. destruct (sy_writer s); [auto|discriminate].
  - destruct (sy_writer s) as [|r rest] eqn:EW; [discriminate|]. cbn [List.length] in L.
    destruct (disk_inv _ _ _ _ _ _ R i files T EI DE DR) as [C|(done & E & WD & WP)]; [auto|].
    destruct (no_collision sha1 (i_piece_length i) T s) as [C|NC]; [auto|].
    pose proof (inv_reached _ _ _ _ _ _ R) as I. unfold inv in I. rewrite EI in I.
    destruct I as (D & W5 & n & fs & q & lost & PO & GF & EP & PM & LW & NI & II & FQ0 & FM0 & FR & FT).
    assert (DE' := DE). destruct DE' as (GF' & TL & L64 & PP & GD & HS). apply c11_files in GF'.
    assert (fs = files) by congruence. subst fs. pose proof (describes_count sha1 p i files T n DE PO) as EN.
    rewrite Forall_forall in FR. destruct (FR r) as (F1 & F2 & F3 & F4). { rewrite E, EW. apply in_or_app. right. left. auto. }
    assert (RP : rd_piece r = torrent_piece T (i_piece_length i) (rd_idx r)).
    { apply NC; [rewrite E, EW; apply in_or_app; right; left; auto|]. rewrite F4. apply HS. subst n. auto. }
    destruct (c42 _ _ _ _ _ _ _ _ _ R EI DE DR) as [C|(_ & DR1 & _)]; [auto|].
    destruct (write_piece_right p cwd files (i_piece_length i) T (rd_idx r) (sy_disk s) TL L64 PP GD DR1 ltac:(subst n; auto)) as (d2 & W2 & _).
    assert (ES : sys_step sha1 p cwd s OWrite = {| sy_actor := sy_actor s; sy_dead := sy_dead s; sy_mail := sy_mail s;
       sy_queue := sy_queue s; sy_working := sy_working s; sy_workers := sy_workers s;
       sy_writer := rest; sy_writer_dead := false; sy_disk := d2; sy_trace := sy_trace s |}).
    { cbn [sys_step]. rewrite WD, EW, RP, F1, F2, W2. reflexivity. }
    destruct (IH (sys_step sha1 p cwd s OWrite)) as [C|G].
    + rewrite ES. cbn. lia.
    + apply reached_step; [auto|exact Logic.I].
    + rewrite ES. auto.
    + rewrite ES. auto.
    + rewrite ES. exact Q.
    + rewrite ES. exact F.
    + left. rewrite ES in C. exact C.
    + right. cbn zeta in *. cbn [repeat]. change (OWrite :: repeat OWrite w) with ([OWrite] ++ repeat OWrite w). rewrite run_app. 
      change (sys_run sha1 p cwd s [OWrite]) with (sys_step sha1 p cwd s OWrite).
      destruct G as (G1 & G2 & G3 & G4 & G5 & G6). rewrite G6. rewrite ES at 6. auto 10.
Qed.

Lemma c46_can_finish : forall sha1 p cwd ih d s i n, reached sha1 p cwd ih d s -> requested (sy_trace s) <> [] ->
  ta_info (sy_actor s) = Some i -> pieces_of p i n -> sy_workers s = 5%nat ->
  (forall ep idx, In ep (reported s) -> (idx < n)%N -> exists net pid fuel piece, download sha1 p fuel net pid ep i idx = Ret (Ok piece)) ->
  exists ops, Forall op_ok ops /\ let s' := sys_run sha1 p cwd s ops in Permutation (completed s') (numbers n) /\
    forall files T, describes sha1 i files T -> disk_ready cwd files d ->
      let s'' := sys_run sha1 p cwd s' (repeat OWrite (List.length (sy_writer s'))) in
      collision sha1 (i_piece_length i) T s' \/
      forall k f, nth_error files k = Some f -> (0 < f_length f)%N ->
        sy_disk s'' (cwd ++ f_path f) = Some (NFile (file_content T files k f)).
Proof.
  intros sha1 p cwd ih d s i n R RQ EI PO W DL.
  destruct (can_complete sha1 p cwd ih d i n PO (work s) s ltac:(lia) R RQ EI W DL) as (ops & FO & G). cbn zeta in G. exists ops. split; [auto|]. cbn zeta.
  pose proof (reached_run _ _ _ _ _ ops s R FO) as R'. set (s' := sys_run sha1 p cwd s ops) in *. clearbody s'.
  destruct G as (EI' & W' & Q & F). split; [eapply c41_done; eauto|]. intros files T DE DR.
  destruct (can_drain sha1 p cwd ih d i files T DE DR _ s' eq_refl R' EI' W' Q F) as [C|G]; [auto|]. cbn zeta in G.
  assert (FW : Forall op_ok (repeat OWrite (List.length (sy_writer s')))) by (apply Forall_forall; intros o X; apply repeat_spec in X as ->; exact Logic.I).
  pose proof (reached_run _ _ _ _ _ _ s' R' FW) as R''.
  set (s'' := sys_run sha1 p cwd s' (repeat OWrite (List.length (sy_writer s')))) in *. clearbody s''.
  destruct G as (EI'' & W'' & Q'' & F'' & WQ & ET).
  destruct (c42 _ _ _ _ _ _ _ _ _ R'' EI'' DE DR) as [C|(_ & _ & _ & _ & G)].
  - left. unfold collision in *. rewrite ET in C. auto.
  - right. apply G. eapply c42_done; eauto.
Qed.

(** A state in which nothing can happen but the report of another peer. *)
Lemma c46_stuck : forall sha1 p cwd ih d s i files T, reached sha1 p cwd ih d s -> requested (sy_trace s) <> [] ->
  ta_info (sy_actor s) = Some i -> describes sha1 i files T -> disk_ready cwd files d -> sy_workers s = 5%nat ->
  (forall o, op_ok o -> (forall ep, o <> OPeer ep) -> sys_step sha1 p cwd s o = s) ->
  collision sha1 (i_piece_length i) T s \/
  forall k f, nth_error files k = Some f -> (0 < f_length f)%N ->
    sy_disk s (cwd ++ f_path f) = Some (NFile (file_content T files k f)).
Proof.
  intros sha1 p cwd ih d s i files T R RQ EI DE DR W ST.
  destruct (c42 _ _ _ _ _ _ _ _ _ R EI DE DR) as [C|(WD & DRs & _ & _ & G)]; [auto|].
  assert (FL : in_flight s = []).
  { destruct (in_flight s) as [|x t] eqn:F; [auto|]. exfalso.
    destruct (flight_enabled _ _ _ _ _ _ R) as [M|[K|[Q L]]]; [congruence| | |].
    - assert (OK : op_ok (OHandle 0 (Ret None) id_shuffle)) by (intros k l; apply Permutation_refl).
      assert (E := ST _ OK ltac:(discriminate)). destruct (sy_mail s) as [|m q] eqn:EM; [congruence|].
      apply (f_equal (fun st => List.length (sy_mail st))) in E. cbn [sys_step] in E. rewrite (c44_safe _ _ _ _ _ _ _ R EI), EM in E. cbn [nth_error] in E.
      pose proof (handle_returns _ _ _ _ _ _ m 0 _ R EI ltac:(rewrite EM; reflexivity)) as (a & es & EH). rewrite EH in E. cbn [sy_mail remove_nth List.length] in E. lia.
    - destruct (sy_working s) as [|r q] eqn:EK; [congruence|].
      assert (E := ST (OFinish 0 None [] 0) Logic.I ltac:(discriminate)).
      apply (f_equal (fun st => List.length (sy_working st))) in E. cbn [sys_step] in E. rewrite EK in E. cbn [nth_error] in E.
      unfold download, connect in E. destruct (ModelTracker.parse_socket_addr (rq_endpoint r)); cbn [orbind sy_working remove_nth List.length] in E; lia.
    - assert (E := ST OStart Logic.I ltac:(discriminate)). destruct (sy_queue s) as [|r q] eqn:EQ; [congruence|].
      apply (f_equal (fun st => List.length (sy_queue st))) in E. cbn [sys_step] in E. rewrite EQ, (proj2 (Nat.ltb_lt _ _) L) in E.
      cbn [sy_queue List.length] in E. lia. }
  assert (WT : waiting s = []).
  { destruct (c40 _ _ _ _ _ _ R) as [_ X]. apply X; auto. rewrite FL, W. cbn. lia. }
  destruct (sy_writer s) as [|r q] eqn:EW.
  - right. apply G. eapply c42_done; eauto.
  - destruct (can_drain sha1 p cwd ih d i files T DE DR _ s eq_refl R EI W WT FL) as [C|X]; [auto|]. exfalso.
    assert (E := ST OWrite Logic.I ltac:(discriminate)).
    assert (Z : forall n, sys_run sha1 p cwd s (repeat OWrite n) = s).
    { induction n as [|n IH]; [reflexivity|]. cbn [repeat]. change (OWrite :: repeat OWrite n) with ([OWrite] ++ repeat OWrite n). rewrite run_app.
      change (sys_run sha1 p cwd s [OWrite]) with (sys_step sha1 p cwd s OWrite). rewrite E. exact IH. }
    cbn zeta in X. rewrite Z in X. destruct X as (_ & _ & _ & _ & X & _). congruence.
Qed.

(** ** What an aborted worker means *)

Lemma workers_step : forall sha1 p cwd s o, (sy_workers (sys_step sha1 p cwd s o) <= sy_workers s)%nat.
Proof.
  intros sha1 p cwd s o. destruct o as [ep|k found shuffle| |k net pid fuel|]; cbn [sys_step]; auto.
  - destruct (sy_dead s); [auto|]. destruct (nth_error (sy_mail s) k); [|auto].
    destruct (handle p found shuffle (sy_actor s) t) as [[a es]| |]; auto.
  - destruct (sy_queue s); [auto|]. destruct (List.length (sy_working s) <? sy_workers s)%nat; auto.
  - destruct (nth_error (sy_working s) k) as [r|]; [|auto].
    destruct (download sha1 p fuel net pid (rq_endpoint r) (rq_info r) (rq_idx r)) as [[|]| |]; cbn [sy_workers]; lia.
  - destruct (sy_writer_dead s); [auto|]. destruct (sy_writer s); [auto|].
    destruct (write p cwd (sy_disk s) (rd_piece p0) (rd_idx p0) (rd_files p0) (rd_piece_length p0)); auto.
Qed.

Lemma workers_run : forall sha1 p cwd ops s, (sy_workers (sys_run sha1 p cwd s ops) <= sy_workers s)%nat.
Proof.
  intros sha1 p cwd. induction ops as [|o t IH]; intros s; [auto|]. cbn. specialize (IH (sys_step sha1 p cwd s o)).
  unfold sys_run in IH. pose proof (workers_step sha1 p cwd s o). lia.
Qed.

Lemma info_run : forall sha1 p cwd ih d i ops s, reached sha1 p cwd ih d s -> Forall op_ok ops -> ta_info (sy_actor s) = Some i ->
  ta_info (sy_actor (sys_run sha1 p cwd s ops)) = Some i.
Proof.
  intros sha1 p cwd ih d i. induction ops as [|o t IH]; intros s R F E; [auto|]. inversion F; subst. cbn.
  apply IH; [apply reached_step; auto|auto|eapply step_info; eauto].
Qed.

Lemma c39_abort : forall sha1 p cwd ih d s i n ops, reached sha1 p cwd ih d s -> ta_info (sy_actor s) = Some i -> pieces_of p i n ->
  (sy_workers s < 5)%nat -> Forall op_ok ops ->
  let s' := sys_run sha1 p cwd s ops in
  exists idx, (idx < n)%N /\ ~ In idx (completed s') /\ ~ In idx (waiting s') /\ ~ In idx (in_flight s').
Proof.
  intros sha1 p cwd ih d s i n ops R EI PO W F. cbn zeta.
  pose proof (reached_run _ _ _ _ _ ops s R F) as R'. pose proof (info_run _ _ _ _ _ _ ops s R F EI) as EI'.
  pose proof (workers_run sha1 p cwd ops s) as W'. set (s' := sys_run sha1 p cwd s ops) in *. clearbody s'.
  apply c39 in R'. rewrite EI' in R'. destruct R' as (n' & lost & PO' & LW & PM).
  assert (n' = n) by (eapply pieces_of_unique; eauto). subst n'.
  destruct lost as [|x lost]; [cbn in LW; lia|]. exists x.
  pose proof (Permutation_NoDup (Permutation_sym PM) (numbers_nodup n)) as ND.
  split. { apply in_numbers. apply (Permutation_in x PM). rewrite !in_app_iff. cbn. tauto. }
  assert (C : forall l1 l2, NoDup (l1 ++ l2) -> In x l2 -> ~ In x l1).
  { clear. induction l1 as [|y l1 IH]; intros l2 N I J; [contradiction|]. cbn in N. inversion N; subst. destruct J as [->|J]; [|eapply IH; eauto].
    apply H1. apply in_or_app. auto. }
  pose proof (NoDup_app_r _ _ _ ND) as ND2. pose proof (NoDup_app_r _ _ _ ND2) as ND3.
  split; [apply (C _ _ ND3); cbn; auto|]. split.
  - apply (C _ _ ND). rewrite !in_app_iff. cbn. tauto.
  - apply (C _ _ ND2). rewrite !in_app_iff. cbn. tauto.
Qed.

(** Nothing more happens once all workers are gone. *)
Lemma c46_stall : forall sha1 p cwd ih d s ops, reached sha1 p cwd ih d s -> sy_workers s = 0%nat -> Forall op_ok ops ->
  let s' := sys_run sha1 p cwd s ops in completed s' = completed s /\ in_flight s' = [].
Proof.
  intros sha1 p cwd ih d s ops R W. revert s R W. induction ops as [|o t IH]; intros s R W F; cbn zeta.
  - split; [auto|]. destruct (c40 _ _ _ _ _ _ R) as [L _]. cbn. destruct (in_flight s); [auto|cbn in L; lia].
  - inversion F; subst. cbn. pose proof (reached_step _ _ _ _ _ _ _ R H1) as R1. pose proof (workers_step sha1 p cwd s o) as W1.
    destruct (IH (sys_step sha1 p cwd s o) R1 ltac:(lia) H2) as [A B]. unfold sys_run in *. rewrite A. split; [|auto].
    destruct (completed_step sha1 p cwd s o) as [E|(k & found & shuffle & ep & piece & idx & -> & Hm & E)]; [auto|]. exfalso.
    destruct (c40 _ _ _ _ _ _ R) as [L _]. rewrite in_flight_len, (mail_removed_len _ _ _ Hm) in L. cbn in L. lia.
Qed.
