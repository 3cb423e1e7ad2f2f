(** ProofBegin: proofs for PropLink, from the first peer to the first request *)
From Coq Require Import Permutation Lia.
From Verif Require Import Base Utf8 ModelBencode ModelMessages ModelTorrent ModelWriter ModelTracker ModelStream ModelPeer ModelLive
  ModelActors ModelCache ModelMain ProofBase SpecBencode ProofBencode SpecTorrent ProofTorrent SpecWriter ProofWriter SpecPieces ProofPieces SpecPeer ProofPeer
  SpecSystem ProofSystem SpecSession ProofSession SpecCache ProofCache ProofCache2 SpecMain ProofMain
  SpecText ProofText SpecDisk ProofDisk SpecWhole ProofWhole SpecForever ProofForever SpecLive ProofLive ProofAnswers SpecSeeds ProofSeeds ProofLog SpecLink ProofLink.

(** ** The description *)

Lemma collect_intro : forall sha1 i files T cwd d ep accept fuel net pid, (forall b, List.length (sha1 b) = 20%nat) -> publishable sha1 i files T ->
  let h := sha1 (benc (info_value i)) in
  description_ok cwd h i d -> parse_socket_addr ep <> None ->
  (exists v, has_description h i v /\ List.length pid = 20%nat /\
     (11 + 10 * N.to_nat (piece_count (lenN (benc (info_value i))) 16384) <= fuel)%nat /\
     (List.length (js_info i) <= accept)%nat /\
     get_info fuel net pid h ep = get_info_l serving (server_hears v) server_says fuel [] newly pid h ep) ->
  exists d', collect_info accept fuel cwd d net pid h ep = Ret (Some i, d') /\
    d' (cwd ++ [s2b "downloads"]) = Some NDir /\ d' (in_downloads cwd (encode_binary h)) = Some (NFile (js_info i)).
Proof.
  intros sha1 i files T cwd d ep accept fuel net pid HL PB h [DD DF] EP (v & (V1 & V2 & V3 & V4 & V5) & LP & LF & LA & EG).
  destruct PB as [PI PO _ _ _ _ PM _].
  assert (MP : (0 < lenN (benc (info_value i)))%N) by (unfold info_value, lenN; cbn [benc]; rewrite app_length; change (List.length (s2b "d")) with 1%nat; lia).
  assert (GI : get_info fuel net pid h ep = Ret (Ok i)).
  { rewrite EG, <- V1. apply c82_metadata; try assumption; rewrite ?V1, ?V2; try assumption; [apply HL|]. rewrite <- enc_info_canonical by auto. apply c09; auto. }
  assert (W : exists d1, walk_create d cwd [dot; downloads] = Some (d1, cwd ++ [downloads])).
  { cbn [walk_create]. change (bytes_eqb dot [] || bytes_eqb dot dot) with true. cbv iota.
    change (bytes_eqb downloads [] || bytes_eqb downloads dot) with false. change (bytes_eqb downloads dotdot) with false. cbv iota zeta.
    change (s2b "downloads") with downloads in DD. destruct DD as [-> | ->]; eauto. }
  destruct W as (d1 & W). destruct (walk_downloads _ _ _ _ W) as (_ & _ & DO & _).
  change (in_downloads cwd (encode_binary h)) with (cache_loc cwd h) in *. pose proof (cache_loc_ne cwd h) as NE.
  assert (G : exists d', collect_info accept fuel cwd d net pid h ep = Ret (Some i, d') /\ d' (cache_loc cwd h) = Some (NFile (js_info i))).
  { unfold collect_info. rewrite W. unfold from_file. rewrite (DO _ NE). destruct DF as [DF|DF]; rewrite DF.
    - cbn [obind]. rewrite GI. cbn [obind]. unfold save. rewrite (DO _ NE), DF. cbn [obind]. eexists. split; [reflexivity|].
      rewrite set_same, firstn_all2 by lia. reflexivity.
    - rewrite (info_text i (plain_rust i PI PO)), (json_round_trip i (plain_rust i PI PO)). cbn [obind]. exists d1. split; [reflexivity|].
      rewrite (DO _ NE). exact DF. }
  destruct G as (d' & C & E). exists d'. split; [exact C|]. split; [|exact E]. apply (collect_inv _ _ _ _ _ _ _ _ _ _ C).
Qed.

(** ** The state of a torrent that is introduced properly *)

Definition introduced_well (i : info) (T : bytes) (x : sys) : Prop :=
  sy_dead x = false /\
  match ta_info (sy_actor x) with
  | None => ta_peers (sy_actor x) = []
  | Some j => j = i /\ (ta_initiated (sy_actor x) = false -> (lenN (ta_peers (sy_actor x)) <= 10)%N \/ T = [])
  end.

Lemma introduced_same : forall sha1 p cwd i T x o, (forall k found sh, o <> OHandle k found sh) -> introduced_well i T x ->
  introduced_well i T (sys_step sha1 p cwd x o).
Proof.
  intros sha1 p cwd i T x o NH H. destruct (step_trace sha1 p cwd x o) as [(_ & EA)|(k & found & sh & m & a & es & -> & _)]; [|destruct (NH k found sh); auto].
  assert (ED : sy_dead (sys_step sha1 p cwd x o) = sy_dead x).
  { destruct o as [ep|k found sh| |k net pid fuel|]; cbn [sys_step]; auto; [destruct (NH k found sh); auto| | |].
    - destruct (sy_queue x); [auto|]. destruct (List.length (sy_working x) <? sy_workers x)%nat; auto.
    - destruct (nth_error (sy_working x) k) as [r|]; [|auto].
      destruct (download sha1 p fuel net pid (rq_endpoint r) (rq_info r) (rq_idx r)) as [[|]| |]; auto.
    - destruct (sy_writer_dead x); [auto|]. destruct (sy_writer x) as [|r rest]; [auto|].
      destruct (write p cwd (sy_disk x) (rd_piece r) (rd_idx r) (rd_files r) (rd_piece_length r)); auto. }
  unfold introduced_well. rewrite ED, EA. exact H.
Qed.

Lemma empty_content : forall plen (T : bytes), (0 < plen)%N -> piece_count (lenN T) plen = 0%N -> T = [].
Proof.
  intros plen T P E. destruct T as [|b T]; [auto|]. exfalso. unfold piece_count in E.
  assert (0 < (lenN (b :: T) + plen - 1) / plen)%N by (apply N.div_str_pos; unfold lenN; cbn [List.length]; lia). lia.
Qed.

(** A message handled while the description is known. *)
Lemma introduced_handle : forall sha1 p cwd d i files T x k found sh, inv sha1 p d x -> ta_info (sy_actor x) = Some i -> describes sha1 i files T ->
  op_ok (OHandle k found sh) -> introduced_well i T x -> introduced_well i T (sys_step sha1 p cwd x (OHandle k found sh)).
Proof.
  intros sha1 p cwd d i files T x k found sh I EI DE OKH (D & H). rewrite EI in H. destruct H as (_ & H). cbn [op_ok] in OKH.
  pose proof I as INV. unfold inv in I. rewrite EI in I. destruct I as (_ & _ & n & fl & q & lost & PO & GF & EP & PM & LW & NI & YI & _).
  pose proof (describes_count _ _ _ _ _ _ DE PO) as EN. destruct DE as (_ & _ & _ & PP & _).
  assert (EI' : ta_info (sy_actor (sys_step sha1 p cwd x (OHandle k found sh))) = Some i) by (apply info_stable; exact EI).
  split.
  { pose proof (inv_step sha1 p d cwd x (OHandle k found sh) INV OKH) as I'. unfold inv in I'. rewrite EI' in I'. apply I'. }
  rewrite EI'. split; [reflexivity|].
  destruct (step_trace sha1 p cwd x (OHandle k found sh)) as [(_ & ->)|(k0 & found0 & sh0 & m & a & es & EO & _ & Hm & EH & _ & -> & _)]; [exact H|].
  injection EO as <- <- <-. intros NB.
  destruct m as [ep|ep piece idx|ep idx]; cbn [handle] in EH.
  - unfold handle_peer_found in EH. rewrite EI, EP in EH. destruct (10 <? lenN (ta_peers (sy_actor x) ++ [apeer_new ep]))%N eqn:LT; cbn [andb] in EH.
    2:{ injection EH as <- _. left. cbn [ta_peers]. apply N.ltb_ge in LT. exact LT. }
    destruct (ta_initiated (sy_actor x)) eqn:EB; cbn [negb] in EH.
    { injection EH as <- _. discriminate NB. }
    cbn [unwrap obind] in EH. destruct (initial_spec 5 0 sh i (ta_peers (sy_actor x) ++ [apeer_new ep]) q false OKH) as (es0 & E0 & _).
    { destruct (ta_peers (sy_actor x)); discriminate. }
    rewrite E0 in EH. cbn [obind] in EH. injection EH as <- _. cbn [ta_initiated] in NB.
    destruct q as [|z q]; [|discriminate NB]. right. apply (empty_content (i_piece_length i)); [lia|]. rewrite <- EN.
    destruct (NI eq_refl) as (E1 & E2 & E3 & _). rewrite E1, E2, E3 in PM. apply Permutation_nil in PM. destruct (N.eq_dec n 0) as [->|NZ]; [reflexivity|].
    exfalso. assert (X : In 0%N (numbers n)) by (apply in_numbers; lia). rewrite PM in X. destruct X.
  - unfold handle_success in EH. apply obind_ret in EH as (i0 & _ & EH). apply obind_ret in EH as (f & _ & EH). apply obind_ret in EH as (q0 & _ & EH).
    destruct (pool_pop q0). injection EH as <- _. cbn [ta_initiated ta_peers] in *. unfold lenN, update_success in *. rewrite map_length. auto.
  - unfold handle_failed in EH. apply obind_ret in EH as (q0 & _ & EH). apply obind_ret in EH as (e0 & _ & EH). cbn zeta in EH. destruct (pool_pop _) as [[z|] q1].
    + apply obind_ret in EH as (i0 & _ & EH). injection EH as <- _. cbn [ta_initiated ta_peers] in *. unfold lenN, update_failed in *. rewrite map_length. auto.
    + injection EH as <- _. cbn [ta_initiated ta_peers] in *. unfold lenN, update_failed in *. rewrite map_length. auto.
Qed.

(** The first message. *)
Lemma introduced_first : forall sha1 p cwd i files T x k ep sh, describes sha1 i files T -> introduced_well i T x -> ta_info (sy_actor x) = None ->
  nth_error (sy_mail x) k = Some (PeerFound ep) -> introduced_well i T (sys_step sha1 p cwd x (OHandle k (Ret (Some i)) sh)) /\
    ta_info (sy_actor (sys_step sha1 p cwd x (OHandle k (Ret (Some i)) sh))) = Some i.
Proof.
  intros sha1 p cwd i files T x k ep sh DE (D & H) EI Hm. rewrite EI in H.
  pose proof (describes_total _ p _ _ _ DE) as GT. destruct DE as (_ & _ & _ & PP & _).
  cbn [sys_step]. rewrite D, Hm. cbn [handle]. unfold handle_peer_found. rewrite EI. cbn [obind]. rewrite GT. cbn [obind]. unfold get_piece_length.
  rewrite (step_by_count (lenN T) (i_piece_length i)) by lia. cbn [obind]. split; [|reflexivity]. unfold introduced_well. cbn [sy_dead sy_actor ta_info ta_peers].
  split; [reflexivity|]. split; [reflexivity|]. intros _. left. rewrite H. vm_compute. discriminate.
Qed.

(** ** The descriptions on the disk and in memory *)
Lemma write_or_same : forall sha1 p cwd d ops s t, started sha1 p cwd d ops s ->
  (forall l, pr_disk (pr_step sha1 p cwd s (PWrite t)) l = pr_disk s l) \/ written_change p cwd s t (pr_disk (pr_step sha1 p cwd s (PWrite t))).
Proof.
  intros sha1 p cwd d ops s t R.
  cbn [pr_step]. unfold torrent_step. destruct (nth_error (pr_torrents s) t) as [x|] eqn:EX; [|left; auto].
  cbn [sys_step set_disk sy_writer_dead sy_writer sy_disk pr_disk].
  destruct (sy_writer_dead x); [left; auto|]. destruct (sy_writer x) as [|r rest] eqn:W; [left; auto|].
  pose proof (readies_good _ _ _ _ _ _ R t x EX) as G. destruct (writer_suffix _ _ _ _ _ _ R t x EX) as (done & ET).
  rewrite ET in G. rewrite W in G.
  destruct (ta_info (sy_actor x)) as [i|] eqn:I; [|apply app_eq_nil in G as [_ G]; discriminate].
  destruct G as (n & files & _ & GF & G). apply Forall_app in G as [_ G]. inversion G as [|? ? (F1 & _) _]; subst.
  apply c11_files in GF.
  destruct (write p cwd (pr_disk s) (rd_piece r) (rd_idx r) (rd_files r) (rd_piece_length r)) as [d'| |] eqn:WR; cbn [sy_disk].
  + right. exists x, i, (rd_files r), r. split; [auto|]. split; [auto|]. split; [auto|]. symmetry. apply write_left_ret. auto.
  + right. exists x, i, (rd_files r), r. auto.
  + left. auto.
Qed.

Section Introduced.
  Variable sha1 : bytes -> bytes.
  Variable p : profile.
  Variable cwd : loc.
  Variables (I : nat -> info) (F : nat -> list file) (T : nat -> bytes).
  Hypothesis HL : forall b, List.length (sha1 b) = 20%nat.
  Hypothesis HO : forall b, octets (sha1 b).
  Hypothesis MADE : forall t, publishable sha1 (I t) (F t) (T t).
  Hypothesis SAME : forall t u, sha1 (benc (info_value (I t))) = sha1 (benc (info_value (I u))) -> I t = I u.
  Let hash u := sha1 (benc (info_value (I u))).

  Lemma written_ok : forall s t d', written_change p cwd s t d' ->
    (forall x, nth_error (pr_torrents s) t = Some x -> introduced_well (I t) (T t) x) ->
    forall u, description_ok cwd (hash u) (I u) (pr_disk s) -> description_ok cwd (hash u) (I u) d'.
  Proof.
    intros s t d' (x & i & files & r & H & EI & CO & ->) W u DD. destruct (W x H) as (_ & W'). rewrite EI in W'. destruct W' as (-> & _).
    pose proof (pb_describes _ _ _ _ (MADE t)) as (C & _ & _ & _ & G & _).
    rewrite (consists_unique _ _ _ CO C) in *. clear CO files.
    assert (KEPT : forall l, in_saved cwd l -> write_left p cwd (pr_disk s) (rd_piece r) (rd_idx r) (F t) (rd_piece_length r) l = pr_disk s l).
    { intros l SL. destruct (write_left_changes p cwd (pr_disk s) (rd_piece r) (rd_idx r) (F t) (rd_piece_length r) (proj1 G) l) as [E|(path & (f & Hf & <-) & q & rr & EP & -> & _)]; [exact E|exfalso].
      destruct q as [|a q].
      - destruct SL as (c & E). rewrite app_nil_r, <- app_assoc in E. apply (f_equal (@List.length _)) in E. rewrite !app_length in E. cbn [List.length] in E. lia.
      - exact (outside_not_in cwd (F t) f (a :: q) rr (pb_outside _ _ _ _ (MADE t)) Hf EP ltac:(discriminate) SL). }
    unfold description_ok in *. rewrite !KEPT; [exact DD| |].
    - exists [encode_binary (hash u)]. unfold in_downloads. rewrite <- app_assoc. reflexivity.
    - exists []. rewrite app_nil_r. reflexivity.
  Qed.

  Lemma joint_step : forall d l s o, started sha1 p cwd d l s -> pop_ok o -> (forall u, introduced (I u) u s o) ->
    (forall u x, nth_error (pr_torrents s) u = Some x -> ta_info_hash (sy_actor x) = hash u) ->
    (forall u, description_ok cwd (hash u) (I u) (pr_disk s)) ->
    (forall u x, nth_error (pr_torrents s) u = Some x -> introduced_well (I u) (T u) x) ->
    (forall u, description_ok cwd (hash u) (I u) (pr_disk (pr_step sha1 p cwd s o))) /\
    (forall u x, nth_error (pr_torrents (pr_step sha1 p cwd s o)) u = Some x -> introduced_well (I u) (T u) x).
  Proof.
    intros d l s o R OK IN HA ID IW.
    assert (TS : forall s0 t o', pr_torrents s0 = pr_torrents s ->
      (forall x, nth_error (pr_torrents s) t = Some x -> introduced_well (I t) (T t) (sys_step sha1 p cwd (set_disk (pr_disk s0) x) o')) ->
      forall u x', nth_error (pr_torrents (torrent_step sha1 p cwd s0 t o')) u = Some x' -> introduced_well (I u) (T u) x').
    { intros s0 t o' E0 G u x' H. rewrite torrent_nth, E0 in H. destruct (u =? t)%nat eqn:U; [|apply IW; exact H].
      apply Nat.eqb_eq in U as ->. destruct (nth_error (pr_torrents s) t) as [x|] eqn:E; [|discriminate]. injection H as <-. apply G. reflexivity. }
    assert (NHS : forall s0 t o', pr_torrents s0 = pr_torrents s -> (forall k f sh, o' <> OHandle k f sh) -> 
      forall u x', nth_error (pr_torrents (torrent_step sha1 p cwd s0 t o')) u = Some x' -> introduced_well (I u) (T u) x').
    { intros s0 t o' E0 NH. apply TS; [exact E0|]. intros x H. apply introduced_same; [exact NH|]. exact (IW t x H). }
    assert (ST : forall s0 t o', pr_disk s0 = pr_disk s -> o' <> OWrite -> forall u, description_ok cwd (hash u) (I u) (pr_disk (torrent_step sha1 p cwd s0 t o'))).
    { intros s0 t o' E NW u. rewrite pr_disk_step by exact NW. rewrite E. apply ID. }
    destruct o as [raw full|full|k|k j e|k j connects|t k accept fuel net pid sh|t|t k net pid fuel|t]; cbn [pr_step pop_ok] in *.
    - destruct (add_cases p full raw s) as [(h & _ & _ & E)|(_ & _ & E)]; rewrite E; [|auto]. cbn [pr_disk pr_torrents]. split; [exact ID|].
      intros u x H. destruct (Nat.lt_ge_cases u (List.length (pr_torrents s))) as [L|L].
      + rewrite nth_error_app1 in H by exact L. auto.
      + rewrite nth_error_app2 in H by exact L. destruct (u - List.length (pr_torrents s))%nat as [|[|]]; try discriminate. injection H as <-.
        split; [reflexivity|]. reflexivity.
    - destruct (pr_interface s); auto.
    - auto.
    - auto.
    - destruct (nth_error (pr_trackers s) k) as [x|]; [|auto]. destruct (nth_error (tk_jobs x) j) as [[r|r [|e rest]]|]; auto.
      destruct (is_reachable connects (endpoint e)); [|auto]. split; [apply ST; [reflexivity|discriminate]|apply NHS; [reflexivity|discriminate]].
    - destruct (nth_error (pr_torrents s) t) as [x|] eqn:EX; [|auto].
      assert (ORD : (ta_info (sy_actor x) = None -> nth_error (sy_mail x) k = None) ->
        (forall u, description_ok cwd (hash u) (I u) (pr_disk (torrent_step sha1 p cwd s t (OHandle k (Ret None) sh)))) /\
        (forall u x', nth_error (pr_torrents (torrent_step sha1 p cwd s t (OHandle k (Ret None) sh))) u = Some x' -> introduced_well (I u) (T u) x')).
      { intros NM. split; [apply ST; [reflexivity|discriminate]|]. apply TS; [reflexivity|]. intros x0 H0. rewrite EX in H0. injection H0 as <-.
        pose proof (IW t x EX) as W. destruct (ta_info (sy_actor x)) as [i|] eqn:EI.
        - pose proof W as (_ & W'). rewrite EI in W'. destruct W' as (-> & _).
          apply (introduced_handle sha1 p cwd d (I t) (F t)); auto; [|exact (pb_describes _ _ _ _ (MADE t))].
          exact (inv_torrent _ _ _ _ _ _ _ _ _ R EX EI (pr_disk s)).
        - cbn [sys_step set_disk sy_dead sy_mail]. rewrite (NM eq_refl). destruct (sy_dead x); exact W. }
      destruct (ta_info (sy_actor x)) as [i|] eqn:EI.
      { destruct (nth_error (sy_mail x) k) as [[]|]; apply ORD; discriminate. }
      destruct (nth_error (sy_mail x) k) as [m|] eqn:Hm; [|apply ORD; auto].
      pose proof (IW t x EX) as W. pose proof W as (D & W'). rewrite D in *.
      destruct m as [ep|ep piece idx|ep idx].
      2, 3: exfalso; destruct (c58_alone _ _ _ _ _ _ R t x EX) as (h & s0 & _ & R0 & (A1 & A2 & A3 & A4 & A5 & A6 & A7));
            pose proof (inv_reached _ _ _ _ _ _ R0) as J; unfold inv in J; rewrite A1, EI in J; destruct J as (_ & _ & _ & _ & J & _); rewrite A3 in J;
            apply nth_error_In in Hm; assert (X : In idx (flat_map answer_for (sy_mail x))) by (apply in_flat_map; eexists; split; [exact Hm|left; reflexivity]);
            rewrite J in X; destruct X.
      pose proof (HA t x EX) as EH. specialize (IN t eq_refl x ep EX EI Hm). cbn zeta in IN. rewrite EH in *.
      assert (EP : parse_socket_addr ep <> None).
      { apply (reported_parse _ _ _ _ _ _ R t x ep EX). unfold reported, found_peers. apply in_flat_map. exists (PeerFound ep). split; [|left; reflexivity].
        apply in_or_app. right. eapply nth_error_In; eauto. }
      destruct (collect_intro sha1 (I t) (F t) (T t) cwd (pr_disk s) ep accept fuel net pid HL (MADE t) (ID t) EP IN) as (d' & C & E1 & E2). fold (hash t) in C, E2.
      rewrite C. split.
      + intros u. rewrite pr_disk_step by discriminate. cbn [pr_disk with_disk]. split; [right; exact E1|].
        destruct (collect_inv _ _ _ _ _ _ _ _ _ _ C) as (_ & REST & _).
        destruct (list_eq_dec (list_eq_dec N.eq_dec) (in_downloads cwd (encode_binary (hash u))) (in_downloads cwd (encode_binary (hash t)))) as [E|NE].
        * pose proof (c53_own_file cwd _ _ (HO _) (HO _) E) as EQ. rewrite E, E2. rewrite (SAME u t EQ). auto.
        * rewrite REST; [apply (ID u)|apply cache_loc_ne|exact NE].
      + apply TS; [reflexivity|]. intros x0 H0. rewrite EX in H0. injection H0 as <-.
        apply (introduced_first sha1 p cwd (I t) (F t) (T t) (set_disk d' x) k ep sh (pb_describes _ _ _ _ (MADE t)) W EI Hm).
    - split; [apply ST; [reflexivity|discriminate]|apply NHS; [reflexivity|discriminate]].
    - split; [apply ST; [reflexivity|discriminate]|apply NHS; [reflexivity|discriminate]].
    - split; [|apply NHS; [reflexivity|discriminate]]. intros u.
      assert (W : (forall l, pr_disk (pr_step sha1 p cwd s (PWrite t)) l = pr_disk s l) \/
        written_change p cwd s t (pr_disk (pr_step sha1 p cwd s (PWrite t)))) by (eapply write_or_same; eauto).
      destruct W as [E|W].
      + cbn [pr_step] in E. unfold description_ok in *. rewrite !E. apply ID.
      + exact (written_ok s t _ W (IW t) u (ID u)).
  Qed.
End Introduced.

(** ** Enough peers *)
Lemma enough_app : forall c a b, reachable_count c (a ++ b) = (reachable_count c a + reachable_count c b)%nat.
Proof. intros. unfold reachable_count. rewrite filter_app, app_length. reflexivity. Qed.
Lemma peers_app : forall t a b, peers_for t (a ++ b) = peers_for t a ++ peers_for t b.
Proof. intros. unfold peers_for. apply flat_map_app. Qed.

Lemma by_split : forall c t k ks l, ~ In k ks ->
  reachable_count c (peers_for t (by_trackers (k :: ks) l)) = (reachable_count c (flat_map answer_peers (between k t l)) + reachable_count c (peers_for t (by_trackers ks l)))%nat.
Proof.
  intros c t k ks l NI. induction l as [|x l IH]; [reflexivity|].
  assert (C : forall ks, by_trackers ks (x :: l) = (if existsb (Nat.eqb (ld_tracker x)) ks then [x] else []) ++ by_trackers ks l).
  { intros ks'. unfold by_trackers. cbn [filter]. destruct (existsb (Nat.eqb (ld_tracker x)) ks'); reflexivity. }
  assert (B : between k t (x :: l) = (if (ld_tracker x =? k)%nat && (ld_torrent x =? t)%nat then [x] else []) ++ between k t l).
  { unfold between. cbn [filter]. destruct ((ld_tracker x =? k)%nat && (ld_torrent x =? t)%nat); reflexivity. }
  rewrite !C, B, !peers_app, flat_map_app, !enough_app, IH. cbn [existsb].
  destruct (ld_tracker x =? k)%nat eqn:EK; cbn [orb andb].
  - apply Nat.eqb_eq in EK. replace (existsb (Nat.eqb (ld_tracker x)) ks) with false.
    2:{ symmetry. apply Bool.not_true_iff_false. intros E. apply existsb_exists in E as (y & Y & E). apply Nat.eqb_eq in E. subst. contradiction. }
    unfold peers_for. cbn [flat_map app]. destruct (ld_torrent x =? t)%nat; cbn [flat_map app]; rewrite ?app_nil_r; change (reachable_count c []) with 0%nat; lia.
  - destruct (existsb (Nat.eqb (ld_tracker x)) ks); cbn [flat_map]; change (reachable_count c []) with 0%nat; lia.
Qed.

Lemma enough_sum : forall c t q ks l, NoDup ks -> (forall k, In k ks -> List.length (between k t l) = 1%nat) ->
  (forall x, In x l -> In (ld_tracker x) ks -> ld_torrent x = t -> (q (ld_tracker x) <= reachable_count c (answer_peers x))%nat) ->
  (list_sum (map q ks) <= reachable_count c (peers_for t (by_trackers ks l)))%nat.
Proof.
  intros c t q ks l. induction ks as [|k ks IH]; intros ND B Q; [cbn; lia|].
  apply NoDup_cons_iff in ND as [NI ND]. rewrite by_split by exact NI. cbn [map list_sum fold_right]. fold (list_sum (map q ks)).
  assert (X : (q k <= reachable_count c (flat_map answer_peers (between k t l)))%nat).
  { pose proof (B k (or_introl eq_refl)) as BK. destruct (between k t l) as [|x [|]] eqn:E; try discriminate BK.
    assert (IX : In x (between k t l)) by (rewrite E; left; reflexivity). unfold between in IX. apply filter_In in IX as [IX P]. apply andb_prop in P as [P1 P2].
    apply Nat.eqb_eq in P1, P2. cbn [flat_map]. rewrite app_nil_r, <- P1. apply Q; [exact IX|left; auto|exact P2]. }
  specialize (IH ND ltac:(intros k' K'; apply B; right; exact K') ltac:(intros y Y1 Y2; apply Q; [exact Y1|right; exact Y2])). lia.
Qed.

(** ** From the link to the last byte *)
Section Whole.
  Variable sha1 : bytes -> bytes.
  Variable p : profile.
  Variable cwd : loc.
  Variables (I : nat -> info) (F : nat -> list file) (T : nat -> bytes).
  Variable d : fs.
  Variable ops : nat -> pop.
  Hypothesis OK : forall n, pop_ok (ops n).
  Hypothesis HL : forall b, List.length (sha1 b) = 20%nat /\ octets (sha1 b).
  Hypothesis PL : proper_links sha1 p cwd I F T d ops.
  Hypothesis IN : forall u n, introduced (I u) u (state_at sha1 p cwd d ops n) (ops n).
  Let hash u := sha1 (benc (info_value (I u))).
  Let HL1 : forall b, List.length (sha1 b) = 20%nat := fun b => proj1 (HL b).
  Let MADE := pl_made _ _ _ _ _ _ _ _ PL.

  Lemma joint : forall n, (forall u, description_ok cwd (hash u) (I u) (pr_disk (state_at sha1 p cwd d ops n))) /\
    (forall u x, torrent_at sha1 p cwd d ops u n = Some x -> introduced_well (I u) (T u) x).
  Proof.
    induction n as [|n [ID IW]].
    { split; [intros u; apply (pl_saved _ _ _ _ _ _ _ _ PL u)|]. intros u x H. unfold torrent_at in H. destruct u; discriminate H. }
    pose proof (state_started sha1 p cwd d ops n OK) as R. unfold torrent_at. rewrite state_S.
    apply (joint_step sha1 p cwd I F T HL1 (fun b => proj2 (HL b)) MADE (pl_same _ _ _ _ _ _ _ _ PL) d _ _ _ R (OK n) (fun u => IN u n)); auto.
    intros u x H. apply (pl_hash _ _ _ _ _ _ _ _ PL n u). exact (torrent_hash _ _ _ _ _ _ R u x H).
  Qed.

  Lemma c84_description : forall n, (forall u, description_ok cwd (sha1 (benc (info_value (I u)))) (I u) (pr_disk (state_at sha1 p cwd d ops n))) /\
    (forall u x, torrent_at sha1 p cwd d ops u n = Some x -> sy_dead x = false /\ forall j, ta_info (sy_actor x) = Some j -> j = I u).
  Proof.
    intros n. destruct (joint n) as [A B]. split; [exact A|]. intros u x H. destruct (B u x H) as [D W]. split; [exact D|].
    intros j E. rewrite E in W. apply W.
  Qed.

  (** Either an answer arrives, or less is left to be reported. *)
  Lemma moves : forall t n, (ProofForever.asks sha1 p cwd d ops t (S n) < ProofForever.asks sha1 p cwd d ops t n)%nat \/
    ProofForever.asks sha1 p cwd d ops t (S n) = ProofForever.asks sha1 p cwd d ops t n /\
    (List.length (pending t (state_at sha1 p cwd d ops (S n))) + List.length (new_mail (state_at sha1 p cwd d ops n) (ops n) t)
     <= List.length (pending t (state_at sha1 p cwd d ops n)))%nat.
  Proof.
    intros t n. pose proof (state_started sha1 p cwd d ops n OK) as R. pose proof (state_started sha1 p cwd d ops (S n) OK) as R'.
    pose proof (pending_count sha1 p cwd d _ _ (ops n) t R) as PC. pose proof (asked_bound sha1 p cwd d _ _ t R') as AB.
    assert (AS : (List.length (ProofForever.asked_for t (lookups sha1 p cwd (process_init d) (map ops (seq 0 (S n)))))
      = List.length (ProofForever.asked_for t (lookups sha1 p cwd (process_init d) (map ops (seq 0 n))))
        + List.length (ProofForever.asked_for t (lookup_at (state_at sha1 p cwd d ops n) (ops n))))%nat).
    { rewrite seq_S, map_app, lookups_app. unfold ProofForever.asked_for. rewrite filter_app, app_length. cbn [map lookups]. rewrite app_nil_r. reflexivity. }
    unfold ProofForever.asks. destruct (ProofForever.asked_for t (lookup_at (state_at sha1 p cwd d ops n) (ops n))) as [|y l] eqn:EA.
    2:{ left. cbn [List.length] in AS. lia. }
    right. split; [cbn [List.length] in AS; lia|]. rewrite (asked_none _ _ EA) in PC. cbn [List.length] in PC. rewrite <- state_S in PC. lia.
  Qed.
  Lemma moves_run : forall t n k, (ProofForever.asks sha1 p cwd d ops t (n + k) < ProofForever.asks sha1 p cwd d ops t n)%nat \/
    ProofForever.asks sha1 p cwd d ops t (n + k) = ProofForever.asks sha1 p cwd d ops t n /\
    (List.length (pending t (state_at sha1 p cwd d ops (n + k))) <= List.length (pending t (state_at sha1 p cwd d ops n)))%nat.
  Proof.
    intros t n k. induction k as [|k IH]; [rewrite Nat.add_0_r; auto|]. rewrite Nat.add_succ_r. destruct (moves t (n + k)) as [M|[M1 M2]]; lia.
  Qed.

  (** A change of the agenda while there is no description: one more peer, or the description is there. *)
  Lemma unknown_step : forall t n x y, torrent_at sha1 p cwd d ops t n = Some x -> torrent_at sha1 p cwd d ops t (S n) = Some y ->
    ta_info (sy_actor x) = None -> agenda y <> agenda x ->
    ta_info (sy_actor y) = Some (I t) \/ (sy_mail y <> [] /\ List.length (new_mail (state_at sha1 p cwd d ops n) (ops n) t) = 1%nat).
  Proof.
    intros t n x y HX HY EI CH. pose proof (state_started sha1 p cwd d ops n OK) as R.
    destruct (joint (S n)) as [_ W]. specialize (W t y HY).
    assert (NI : ta_info (sy_actor y) <> None -> ta_info (sy_actor y) = Some (I t)).
    { intros N. destruct W as [_ W]. destruct (ta_info (sy_actor y)) as [j|]; [|contradiction]. destruct W as [-> _]. reflexivity. }
    unfold torrent_at in HY. rewrite state_S in HY.
    destruct (torrent_cases sha1 p cwd _ (ops n) t y (OK n) HY) as [[E NM]|[(x0 & D & o' & E & O' & EY & NM & _)|(raw & full & h & _ & _ & E & _)]].
    - unfold torrent_at in HX. rewrite HX in E. injection E as <-. contradiction.
    - unfold torrent_at in HX. rewrite HX in E. injection E as <-.
      destruct (c58_alone _ _ _ _ _ _ R t x HX) as (h & s0 & _ & R0 & (A1 & A2 & A3 & A4 & A5 & A6 & A7)).
      pose proof (inv_reached _ _ _ _ _ _ R0) as J. unfold inv in J. rewrite A1, EI in J. destruct J as (_ & _ & JQ & JW & JM & JT & _).
      assert (SW : sy_writer x = []).
      { destruct (writer_suffix _ _ _ _ _ _ R t x HX) as (dn & ET). rewrite <- A7, JT in ET. symmetry in ET. apply app_eq_nil in ET as [_ ET]. exact ET. }
      destruct o' as [ep|k found sh| |k net pid fuel|].
      + right. split; [rewrite EY; cbn [sys_step set_disk sy_mail]; destruct (sy_mail x); discriminate|]. rewrite <- NM. reflexivity.
      + left. apply NI. intros N. apply CH. unfold introduced_well in W. rewrite N in W. subst y. revert W N. cbn [sys_step].
        change (sy_dead (set_disk D x)) with (sy_dead x). change (sy_mail (set_disk D x)) with (sy_mail x). change (sy_actor (set_disk D x)) with (sy_actor x).
        destruct (sy_dead x) eqn:DX; [intros [W _]; cbn [sy_dead set_disk] in W; congruence|]. destruct (nth_error (sy_mail x) k) as [m|] eqn:Hm; [|reflexivity].
        destruct (handle p found sh (sy_actor x) m) as [[a es]| |] eqn:EH; cbn [sy_dead sy_actor]; [|intros [W _]; discriminate W|reflexivity].
        intros [_ W] N. exfalso. destruct m as [ep|ep piece idx|ep idx].
        * cbn [handle] in EH. unfold handle_peer_found in EH. rewrite EI in EH. apply obind_ret in EH as ([i|] & _ & EH).
          -- apply obind_ret in EH as (? & _ & EH). apply obind_ret in EH as (? & _ & EH). injection EH as <- _. discriminate N.
          -- injection EH as <- _. cbn [ta_peers] in W. destruct (ta_peers (sy_actor x)); discriminate W.
        * rewrite A3 in JM. assert (X : In idx (flat_map answer_for (sy_mail x))) by (apply in_flat_map; eexists; split; [eapply nth_error_In; exact Hm|left; reflexivity]). rewrite JM in X. destruct X.
        * rewrite A3 in JM. assert (X : In idx (flat_map answer_for (sy_mail x))) by (apply in_flat_map; eexists; split; [eapply nth_error_In; exact Hm|left; reflexivity]). rewrite JM in X. destruct X.
      + exfalso. apply CH. subst y. cbn [sys_step set_disk sy_queue]. rewrite <- A4, JQ. reflexivity.
      + exfalso. apply CH. subst y. cbn [sys_step set_disk sy_working]. rewrite <- A5, JW. destruct k; reflexivity.
      + exfalso. apply CH. subst y. cbn [sys_step set_disk sy_writer sy_writer_dead]. rewrite SW. destruct (sy_writer_dead x); reflexivity.
    - exfalso. unfold torrent_at in HX. subst t. assert (X : nth_error (pr_torrents (state_at sha1 p cwd d ops n)) (List.length (pr_torrents (state_at sha1 p cwd d ops n))) = None) by (apply nth_error_None; lia). congruence.
  Qed.

  Lemma known_later : forall t, never_stuck sha1 p cwd d ops t -> forall a b n x, ProofForever.asks sha1 p cwd d ops t n = a ->
    List.length (pending t (state_at sha1 p cwd d ops n)) = b -> torrent_at sha1 p cwd d ops t n = Some x -> sy_mail x <> [] ->
    exists m y, (n <= m)%nat /\ torrent_at sha1 p cwd d ops t m = Some y /\ ta_info (sy_actor y) = Some (I t).
  Proof.
    intros t NS a. induction a as [a IHa] using (well_founded_induction lt_wf). intros b. induction b as [b IHb] using (well_founded_induction lt_wf).
    intros n x EA EB HX NM. destruct (NS n x HX) as [(M & _)|(k & y & z & L & HY & HZ & CH)]; [contradiction|].
    destruct (ta_info (sy_actor y)) as [j|] eqn:EI.
    { exists k, y. split; [exact L|]. split; [exact HY|]. rewrite EI. f_equal. apply (proj2 (c84_description k) t y HY). exact EI. }
    destruct (unknown_step t k y z HY HZ EI CH) as [E|[MZ NL]]; [exists (S k), z; split; [lia|auto]|].
    assert (NEXT : exists m w, (S k <= m)%nat /\ torrent_at sha1 p cwd d ops t m = Some w /\ ta_info (sy_actor w) = Some (I t)).
    { pose proof (moves_run t n (k - n)) as M1. replace (n + (k - n))%nat with k in M1 by lia. pose proof (moves t k) as M2. rewrite NL in M2.
      assert (C : (ProofForever.asks sha1 p cwd d ops t (S k) < a)%nat \/ (ProofForever.asks sha1 p cwd d ops t (S k) = a /\
        (List.length (pending t (state_at sha1 p cwd d ops (S k))) < b)%nat)) by lia.
      destruct C as [C|[C1 C2]].
      - exact (IHa _ C _ (S k) z eq_refl eq_refl HZ MZ).
      - exact (IHb _ C2 (S k) z C1 eq_refl HZ MZ). }
    destruct NEXT as (m & w & L' & X). exists m, w. split; [lia|exact X].
  Qed.

  Hypothesis SV : forall u n, served sha1 p 11 (T u) u (state_at sha1 p cwd d ops n) (ops n).
  Variable c : N * N * N * N * N -> bool.
  Hypothesis NF : forall n, never_full (ops n).
  Hypothesis RC : forall n, reachability c (ops n).
  Variable ks : list nat.
  Hypothesis ND : NoDup ks.
  Hypothesis KS : forall k, In k ks -> (k < List.length tracker_urls)%nat.
  Hypothesis AT : attended sha1 p cwd d ops ks.

  Let shaped : forall u n x i, torrent_at sha1 p cwd d ops u n = Some x -> ta_info (sy_actor x) = Some i -> describes sha1 i (F u) (T u) /\ well_shaped i (T u).
  Proof.
    intros u n x i H EI. rewrite (proj2 (proj2 (c84_description n) u x H) i EI). destruct (MADE u). split; [assumption|].
    split; [exact (pl_blocks _ _ _ _ _ _ _ _ PL u)|]. split; [assumption|]. split; assumption.
  Qed.

  Lemma c84_begins : forall t q n0, never_stuck sha1 p cwd d ops t -> (t < List.length (pr_torrents (state_at sha1 p cwd d ops n0)))%nat ->
    (forall n x, In x (looked_up sha1 p cwd d ops n) -> In (ld_tracker x) ks -> ld_torrent x = t -> (q (ld_tracker x) <= reachable_count c (answer_peers x))%nat) ->
    (10 < list_sum (map q ks))%nat ->
    exists n x, (n0 <= n)%nat /\ torrent_at sha1 p cwd d ops t n = Some x /\ at_rest x /\ ta_info (sy_actor x) = Some (I t) /\ (T t <> [] -> requested (sy_trace x) <> []).
  Proof.
    intros t q n0 NS L0 Q Q10.
    destruct (c84_reported sha1 p cwd d ops OK ks t c n0 NF RC ND KS AT L0) as (n1 & L1 & RP).
    assert (EN : forall m x, (n1 <= m)%nat -> torrent_at sha1 p cwd d ops t m = Some x -> (10 < List.length (reported x))%nat).
    { intros m x L H. destruct (RP m L) as [B RP']. destruct (RP' x H (proj1 (proj2 (c84_description m) t x H))) as (rest & PM).
      apply Permutation_length in PM. rewrite PM, app_length, map_length.
      pose proof (enough_sum c t q ks (looked_up sha1 p cwd d ops m) ND B (Q m)) as ES. unfold reachable_count in ES. lia. }
    assert (T1 : exists x, torrent_at sha1 p cwd d ops t n1 = Some x).
    { pose proof (torrents_later sha1 p cwd d ops OK n0 n1 L1) as TL. unfold torrent_at.
      destruct (nth_error (pr_torrents (state_at sha1 p cwd d ops n1)) t) as [x|] eqn:E; [eauto|]. apply nth_error_None in E. lia. }
    destruct T1 as (x1 & H1).
    assert (KN : exists m y, (n1 <= m)%nat /\ torrent_at sha1 p cwd d ops t m = Some y /\ ta_info (sy_actor y) = Some (I t)).
    { destruct (ta_info (sy_actor x1)) as [j|] eqn:EI.
      { exists n1, x1. split; [lia|]. split; [exact H1|]. rewrite EI. f_equal. apply (proj2 (c84_description n1) t x1 H1). exact EI. }
      apply (known_later t NS _ _ n1 x1 eq_refl eq_refl H1). intros M. pose proof (EN n1 x1 (le_n _) H1) as E. unfold reported in E. rewrite M, app_nil_r in E.
      destruct (c58_alone _ _ _ _ _ _ (state_started sha1 p cwd d ops n1 OK) t x1 H1) as (h & s0 & _ & R0 & (A1 & A2 & A3 & A4 & A5 & A6 & A7)).
      pose proof (c45_count _ _ _ _ _ _ R0) as C. rewrite A1, A7 in C. destruct (proj2 (joint n1) t x1 H1) as [_ W]. rewrite EI in W. rewrite W in C.
      unfold lenN in C. cbn [List.length] in C. lia. }
    destruct KN as (n2 & x2 & L2 & H2 & E2).
    assert (SP : forall n x, torrent_at sha1 p cwd d ops t n = Some x -> spotless (T t) x) by (apply (c83_spotless sha1 p cwd d ops t (F t) (T t) HL1 OK (shaped t) (SV t))).
    destruct (c68_rest sha1 p cwd d ops t 0 n2 x2 (I t) OK NS) as (n3 & x3 & L3 & H3 & AR); auto.
    { intros n x H. destruct (SP n x H) as (_ & E & _). lia. }
    exists n3, x3. split; [lia|]. split; [exact H3|]. split; [exact AR|].
    assert (EI : ta_info (sy_actor x3) = Some (I t)).
    { clear - OK H2 E2 L3 H3. revert x3 H3. induction L3 as [|n3 L3 IH]; intros x3 H3; [congruence|].
      assert (X : exists y, torrent_at sha1 p cwd d ops t n3 = Some y).
      { pose proof (torrents_later sha1 p cwd d ops OK n2 n3 L3) as TL. unfold torrent_at in *.
        destruct (nth_error (pr_torrents (state_at sha1 p cwd d ops n3)) t) as [y|] eqn:E; [eauto|]. apply nth_error_None in E.
        assert (t < List.length (pr_torrents (state_at sha1 p cwd d ops n2)))%nat by (apply nth_error_Some; congruence). lia. }
      destruct X as (y & HY). destruct (torrent_forward sha1 p cwd _ (ops n3) t y HY) as (z & HZ & EZ & _).
      unfold torrent_at in H3. rewrite state_S, HZ in H3. injection H3 as <-. apply EZ, IH, HY. }
    split; [exact EI|]. intros NT.
    destruct (c58_alone _ _ _ _ _ _ (state_started sha1 p cwd d ops n3 OK) t x3 H3) as (h & s0 & _ & R0 & AG). pose proof AG as (A1 & A2 & A3 & A4 & A5 & A6 & A7).
    pose proof (c45_count _ _ _ _ _ _ R0) as C. rewrite A1, A7 in C. pose proof (EN n3 x3 ltac:(lia) H3) as E. unfold reported in E.
    destruct AR as (AM & AQ & AW & _). rewrite AM, app_nil_r in E.
    destruct (proj2 (joint n3) t x3 H3) as [_ W]. rewrite EI in W. destruct W as [_ W].
    destruct (ta_initiated (sy_actor x3)) eqn:EB.
    2:{ destruct (W eq_refl) as [W'|W']; [|contradiction]. unfold lenN in *. lia. }
    pose proof (inv_torrent _ _ _ _ _ _ _ _ _ (state_started sha1 p cwd d ops n3 OK) H3 EI (pr_disk (state_at sha1 p cwd d ops n3))) as J.
    unfold inv in J. cbn [set_disk sy_actor] in J. rewrite EI in J. destruct J as (_ & _ & n & fl & pool & lost & PO & GF & EP & PM & LW & _ & YI & _).
    destruct (YI EB) as (_ & _ & YQ).
    destruct (SP n3 x3 H3) as (W5 & F0 & _).
    assert (IFE : in_flight (set_disk (pr_disk (state_at sha1 p cwd d ops n3)) x3) = []).
    { unfold in_flight. cbn [set_disk sy_mail sy_queue sy_working]. rewrite AM, AQ, AW. reflexivity. }
    cbn [set_disk sy_workers] in LW. rewrite IFE in YQ. rewrite (YQ ltac:(cbn [List.length]; lia)) in EP.
    pose proof (c83_order _ _ _ _ _ _ (I t) n R0 ltac:(rewrite A1; exact EI) PO) as OR. intros RQ. rewrite A7, RQ in OR. unfold waiting in OR. rewrite A1, EP in OR.
    rewrite (describes_count _ _ _ _ _ _ (pb_describes _ _ _ _ (MADE t)) PO) in OR.
    assert (Z : piece_count (lenN (T t)) (i_piece_length (I t)) = 0%N).
    { symmetry in OR. cbn [map app] in OR. apply app_eq_nil in OR as [OR _]. destruct (N.eq_dec (piece_count (lenN (T t)) (i_piece_length (I t))) 0) as [->|NZ]; [reflexivity|].
      exfalso. assert (X : In 0%N (numbers (piece_count (lenN (T t)) (i_piece_length (I t))))) by (apply in_numbers; lia). rewrite OR in X. destruct X. }
    apply NT. apply (empty_content (i_piece_length (I t))); [|exact Z]. destruct (pb_describes _ _ _ _ (MADE t)) as (_ & _ & _ & PP & _). lia.
  Qed.

  Lemma c84_from_link : forall t q n0, never_stuck sha1 p cwd d ops t -> (t < List.length (pr_torrents (state_at sha1 p cwd d ops n0)))%nat ->
    (forall n x, In x (looked_up sha1 p cwd d ops n) -> In (ld_tracker x) ks -> ld_torrent x = t -> (q (ld_tracker x) <= reachable_count c (answer_peers x))%nat) ->
    (10 < list_sum (map q ks))%nat ->
    exists n, forall m, (n <= m)%nat -> complete_on cwd (F t) (T t) (pr_disk (state_at sha1 p cwd d ops m)).
  Proof.
    intros t q n0 NS L0 Q Q10. destruct (c84_begins t q n0 NS L0 Q Q10) as (n & x & _ & H & _ & EI & RQ).
    destruct (T t) as [|b0 T0] eqn:ET.
    - exists 0%nat. intros m _ k f Hf POS. exfalso. destruct (pb_describes _ _ _ _ (MADE t)) as (_ & TL & _). rewrite ET in TL. cbn in TL.
      rewrite (empty_files _ _ _ TL Hf) in POS. lia.
    - rewrite <- ET in *. apply (c83_all sha1 p cwd F T d ops t HL1 OK); auto.
      + intros m. split; [exact (pl_apart _ _ _ _ _ _ _ _ PL m)|]. split; [intros u _; apply (pl_disk _ _ _ _ _ _ _ _ PL)|].
        intros u y i HY EY. exact (proj1 (shaped u m y i HY EY)).
      + intros u m y i HY EY. exact (proj2 (shaped u m y i HY EY)).
      + exists n, x. split; [exact H|]. apply RQ. rewrite ET. discriminate.
  Qed.
End Whole.
