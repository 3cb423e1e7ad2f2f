(** ProofSuffices: a near peer that keeps talking suffices (for C73) *)
From Verif Require Import Base ModelBencode ModelMessages ModelTorrent ModelTracker ModelStream ModelPeer ModelClock
  SpecBencode SpecMessages SpecWriter SpecPieces SpecStream SpecPeer SpecSession SpecWrites SpecVerdict SpecClock SpecNear
  ProofBase ProofMessages ProofPieces ProofStream ProofPeer ProofSession ProofOutput ProofWrites ProofVerdict ProofHear ProofTold ProofExactly
  ProofClock ProofTime ProofQuiet ProofBusy ProofLasts ProofNear.

(** ** What is said among some attempts depends on the messages only *)
Lemma in_somes : forall (c : list heard) r, In (Some r) c <-> In r (somes c).
Proof.
  intros c r. unfold somes. rewrite in_flat_map. split.
  - intros I. exists (Some r). split; [exact I|now left].
  - intros ([r'|] & I & J); [destruct J as [->|[]]; exact I|destruct J].
Qed.
Lemma blocks_somes : forall c d : list heard, somes c = somes d -> blocks c = blocks d.
Proof.
  assert (B : forall c : list heard, blocks c = flat_map (fun r : raw => if ((fst r =? 6) || (fst r =? 7))%N then [skipn 8 (snd r)] else []) (somes c)).
  { induction c as [|[[id body]|] c IH]; [reflexivity| |exact IH]. unfold blocks, somes in *. cbn [flat_map fst snd app]. now rewrite IH. }
  intros c d E. now rewrite !B, E.
Qed.
Lemma meta_somes : forall c l, metadata_blocks c l <-> metadata_blocks (map Some (somes c)) l.
Proof.
  intros c l. split.
  - intros M. induction M; cbn [somes flat_map app map]; [constructor|exact IHM|eapply mb_block; eauto|apply mb_other; auto].
  - revert l. induction c as [|[r|] c IH]; intros l M; cbn [somes flat_map app map] in *; [exact M| |constructor; now apply IH].
    inversion M; subst; [eapply mb_block; eauto|apply mb_other; auto].
Qed.
Lemma told_somes : forall l, somes (told l) = msgs l.
Proof. induction l as [|[t m] l IH]; [reflexivity|]. cbn. unfold somes, told, msgs in IH. now rewrite IH. Qed.

(** ** A peer that behaves is willing *)
Lemma greeting_states : forall h m, parsed (19%N, h) m -> states_size m = None.
Proof.
  intros h m [len P]. cbn [fst snd] in P. unfold new_raw in P. cbn [N.eqb Pos.eqb orb] in P.
  destruct (handshake_from_bytes h); cbn [obind] in P; try discriminate. injection P as <-. reflexivity.
Qed.
Lemma announced_in : forall c n e, announced c n e -> exists r m, In (Some r) c /\ parsed r m /\ states_size m = Some (n, e).
Proof.
  intros c n e A. induction A as [c r m n e P S|c o n e A (r & m & I & P & S) _].
  - exists r, m. split; [apply in_or_app; right; now left|auto].
  - exists r, m. split; [apply in_or_app; now left|auto].
Qed.
Lemma announced_some : forall c r m n e, (forall r, In (Some r) c -> exists m, parsed r m) -> In (Some r) c -> parsed r m -> states_size m = Some (n, e) ->
  exists n e, announced c n e.
Proof.
  induction c as [|o c IH] using rev_ind; intros r m n e W I P S; [destruct I|].
  assert (D : (exists r' m' n' e', o = Some r' /\ parsed r' m' /\ states_size m' = Some (n', e')) \/
              (forall r m, o = Some r -> parsed r m -> states_size m = None)).
  { destruct o as [r'|]; [|right; discriminate]. destruct (W r') as (m' & P'); [apply in_or_app; right; now left|].
    destruct (states_size m') as [[n' e']|] eqn:S'; [left; exists r', m', n', e'; auto|right]. intros r2 m2 [= <-] P2.
    destruct (parsed_unique _ _ _ P' P2) as [C _]. unfold states_size in *. now rewrite <- C. }
  destruct D as [(r' & m' & n' & e' & -> & P' & S')|D]; [exists n', e'; econstructor; eauto|].
  apply in_app_or in I as [I|[->|[]]].
  - destruct (IH r m n e) as (n1 & e1 & A); auto. { intros r1 I1. apply W. apply in_or_app. now left. } exists n1, e1. now constructor.
  - rewrite (D r m eq_refl P) in S. discriminate.
Qed.
Lemma unchoked_once : forall c body, (forall r, In (Some r) c -> fst r <> 0%N) -> In (Some (1%N, body)) c -> unchoked c.
Proof.
  induction c as [|o c IH] using rev_ind; intros body W I; [destruct I|]. destruct o as [r|].
  - apply unchoked_some. destruct (choke_or_unchoke r) eqn:C.
    + unfold choke_or_unchoke in C. apply orb_true_iff in C as [C|C]; apply N.eqb_eq in C; [|exact C].
      exfalso. apply (W r); [apply in_or_app; right; now left|exact C].
    + apply in_app_or in I as [I|[[= ->]|[]]]; [|discriminate C]. apply (IH body); [|exact I]. intros r' I'. apply W. apply in_or_app. now left.
  - apply unchoked_none. apply in_app_or in I as [I|[[=]|[]]]. apply (IH body); [|exact I]. intros r' I'. apply W. apply in_or_app. now left.
Qed.

Section Near.
  Variable size : N -> hmap N -> Prop.
  Hypothesis size_nonzero : forall n e, size n e -> n <> 0%N.
  Variable ih : bytes.
  Variable h : bytes.
  Hypothesis h_length : List.length h = 68%nat.
  Variables op rs : list heard.
  Hypothesis op_unchokes : exists body, In (Some (1%N, body)) op.
  Hypothesis op_states : exists r m n e, In (Some r) op /\ parsed r m /\ states_size m = Some (n, e).
  Hypothesis behaves : forall r, In (Some r) (op ++ rs) -> well_behaved size r.

  Lemma op_sizes : forall c n e, (forall r, In (Some r) c -> In (Some r) op) -> announced (Some (19%N, h) :: c) n e -> size n e.
  Proof.
    intros c n e I A. destruct (announced_in _ _ _ A) as (r & m & [[= <-]|J] & P & S).
    - rewrite (greeting_states _ _ P) in S. discriminate.
    - destruct (behaves r) as (_ & _ & W); [apply in_or_app; left; auto|]. exact (W _ _ _ P S).
  Qed.
  Lemma op_willing : willing (Some (19%N, h) :: op).
  Proof.
    assert (HP : exists m, parsed (19%N, h) m).
    { destruct (c14_parse h) as (m & E & _); [lia|]. eexists. exists 0%N. unfold new_raw. cbn [fst snd N.eqb Pos.eqb orb]. rewrite E. reflexivity. }
    split.
    - destruct op_unchokes as (body & I). apply (unchoked_once _ body); [|now right]. intros r [[= <-]|J]; [discriminate|].
      apply behaves. apply in_or_app. now left.
    - destruct op_states as (r & m & n & e & I & P & S).
      destruct (announced_some (Some (19%N, h) :: op) r m n e) as (n' & e' & A); [|now right|exact P|exact S|].
      { intros r' [[= <-]|J]; [exact HP|]. apply behaves. apply in_or_app. now left. }
      exists n', e'. split; [exact A|]. eapply size_nonzero, op_sizes; [|exact A]. auto.
  Qed.

  Variable cut : Prop.
  Variable got : list heard -> list bytes -> Prop.
  Variable needed : N -> N.
  Variable can_ask : list heard -> Prop.
  Variable l : list bytes.
  Hypothesis got_rest : forall a y, op = a ++ y -> got (y ++ rs) l.
  Hypothesis enough : forall n e, size n e -> countN l = needed n.
  Lemma near_over : ~ pending ih cut got needed can_ask (Some (19%N, h) :: op ++ rs).
  Proof.
    intros P. remember (Some (19%N, h) :: op ++ rs) as c eqn:E. destruct P as [|g a G NC La NW|g a n b (G & NC & Na & La & U & (e & A) & Nn & NW) GO]; [discriminate| |].
    - injection E as -> ->. apply (NW op); [apply starts_app|exact op_willing].
    - injection E as -> E. destruct (app_split _ _ _ _ _ E) as [B|(y & E1 & E2)]; [apply (NW op B), op_willing|].
      destruct (GO b (starts_refl _ b)) as (LK & _). apply (LK l); [rewrite E2; now apply (got_rest a)|].
      apply (enough n e). eapply op_sizes; [|exact A]. intros r I. rewrite E1. apply in_or_app. now left.
  Qed.
End Near.

(** A session the third write of which does not fail. *)
Lemma ends_uncut : forall ih (cut : Prop) got needed can_ask c en, ~ cut -> ends ih cut got needed can_ask c en -> ends ih False got needed can_ask c en.
Proof.
  intros ih cut got needed can_ask c en NC E.
  assert (O : forall h a n, opened ih cut h a n -> opened ih False h a n) by (unfold opened; intuition).
  destruct E as [o G|h G C|h a G _ L W|h a n b l O1 G B GL E|h a n b O1 G B L U|h a n b O1 G B L U A NA|h a n b O1 G B L U A FS].
  - now apply en_refused.
  - contradiction.
  - apply en_unwilling; auto.
  - eapply en_received; eauto.
  - eapply en_choked; eauto.
  - eapply en_nameless; eauto.
  - eapply en_silent; eauto.
Qed.

(** What arrives. *)
Lemma arriving_bytes : forall l, (5 * List.length l <= List.length (sent_bytes (arriving l)))%nat.
Proof.
  induction l as [|[t m] l IH]; [cbn; lia|]. unfold arriving, sent_bytes in *. cbn [map flat_map fst snd List.length]. rewrite app_length.
  change (List.length (frame (fst m) (snd m))) with (5 + List.length (snd m))%nat. lia.
Qed.

Section Suffices.
  Variable size : N -> hmap N -> Prop.
  Hypothesis size_nonzero : forall n e, size n e -> n <> 0%N.
  Variables (ih : bytes) (now t0 : N) (h : bytes) (opening rest : stamped) (fuel n : nat).
  Let evs := from_near t0 h (opening ++ rest).
  Let c := opened_at now evs [].
  Hypothesis is_near : near ih size now t0 h opening rest.
  Hypothesis n_large : (22 + 10 * List.length (sent_bytes evs) <= n)%nat.
  Hypothesis fuel_large : (11 * List.length (sent_bytes evs) + 11 < fuel)%nat.

  Lemma near_cooperates : exists op rs, cooperates ih size (socket_of n c) op rs /\ somes op = msgs opening /\ somes rs = msgs rest /\
    (List.length (op ++ rs) <= fuel)%nat /\
    attempts (S (List.length op + List.length rs)) c = Some (19%N, h) :: op ++ rs /\
    (over_at (S (List.length op + List.length rs)) c <= last_time t0 (opening ++ rest) + 200)%N.
  Proof.
    destruct (near_read ih size now t0 h opening rest is_near) as (op & rs & AT & SO & SR & LO & OV). fold evs in AT, OV. fold c in AT, OV.
    destruct is_near as [Ls (Lh & Hh & HI) Sd Lo UN ST BE Sm]. exists op, rs.
    pose proof (spaced_somes _ _ SO) as EO. pose proof (spaced_somes _ _ SR) as ER.
    pose proof (spaced_length _ _ SO) as NO. pose proof (spaced_length _ _ SR) as NR. unfold msgs in NO, NR. rewrite map_length in NO, NR.
    pose proof (arriving_bytes (opening ++ rest)) as AB. rewrite app_length in AB.
    assert (SB : (List.length (sent_bytes evs) = 68 + List.length (sent_bytes (arriving (opening ++ rest))))%nat).
    { unfold evs, from_near, sent_bytes. cbn [flat_map snd]. rewrite app_length. lia. }
    assert (FR : forall (l : stamped) cs r, somes cs = msgs l -> In (Some r) cs -> exists t, In (t, r) l).
    { intros l cs r E I. apply in_somes in I. rewrite E in I. unfold msgs in I. apply in_map_iff in I as ([t r'] & <- & J). exists t. exact J. }
    assert (TO : forall (l : stamped) cs t r, somes cs = msgs l -> In (t, r) l -> In (Some r) cs).
    { intros l cs t r E I. apply in_somes. rewrite E. unfold msgs. apply in_map_iff. exists (t, r). auto. }
    split; [|split; [exact EO|split; [exact ER|split; [|split; [exact AT|exact OV]]]]].
    - constructor.
      + exists h. split; [|split; [exact Lh|exact HI]].
        set (q := S (List.length op + List.length rs)) in *. assert (Lq : (q <= n)%nat) by (unfold q, heard, raw in *; lia).
        pose proof (attempts_delivered n c eq_refl) as D. assert (EN : attempts n c = attempts q c ++ attempts (n - q) (snd (listen q c))).
        { rewrite <- attempts_app. f_equal. lia. }
        rewrite EN, AT in D. now apply delivers_starts in D.
      + exact LO.
      + destruct UN as (t & body & I). exists body. eapply TO; eauto.
      + destruct ST as (t & r & m & k & e & I & P & S). exists r, m, k, e. split; [eapply TO; eauto|auto].
      + intros r I. apply in_app_or in I as [I|I]; [destruct (FR _ _ _ EO I) as (t & J)|destruct (FR _ _ _ ER I) as (t & J)];
          apply (BE t); apply in_or_app; auto.
      + eapply spaced_talks, spaced_app; eauto.
    - rewrite app_length. unfold heard in *. lia.
  Qed.
  (** The end comes in time. *)
  Lemma near_in_time : forall cut (got : list heard -> list bytes -> Prop) needed can_ask (got_fun : forall b l l', got b l -> got b l' -> l = l') l k en,
    (forall op rs a y, somes op = msgs opening -> somes rs = msgs rest -> op = a ++ y -> got (y ++ rs) l) ->
    (forall k e, size k e -> countN l = needed k) ->
    ends ih cut got needed can_ask (attempts k c) en -> (over_at k c <= last_time t0 (opening ++ rest) + 200)%N.
  Proof.
    intros cut got needed can_ask GF l k en GR EN E. destruct near_cooperates as (op & rs & CO & EO & ER & _ & AT & OV).
    set (q := S (List.length op + List.length rs)) in *. destruct (Nat.le_gt_cases k q) as [K|K]; [pose proof (over_at_mono k q c K); lia|]. exfalso.
    destruct is_near as [_ (Lh & _ & HI) _ _ _ _ _ _]. destruct CO as [_ _ U S B _].
    apply (near_over size size_nonzero ih h Lh op rs U S B cut got needed can_ask l (fun a y => GR op rs a y EO ER) EN).
    assert (PQ : pending ih cut got needed can_ask (attempts q c)); [|rewrite AT in PQ; exact PQ].
    eapply (ends_pending ih cut got needed can_ask GF); [exact E|].
    replace k with (q + (k - q))%nat by lia. rewrite attempts_app. exists (attempts (k - q) (snd (listen q c))). split; [|reflexivity].
    intros Z. apply (f_equal (@List.length _)) in Z. rewrite attempts_length in Z. cbn [List.length] in Z. lia.
  Qed.
End Suffices.

Lemma c73_piece : forall sha1 p fuel n pid ep i idx total now t0 h opening rest,
  parse_socket_addr ep <> None -> get_total_length p i = Ret total ->
  (0 < i_piece_length i)%N -> (idx < piece_count total (i_piece_length i))%N -> (total + i_piece_length i <= 2 ^ 64)%N ->
  (idx < 2 ^ 32)%N -> (i_piece_length i < 2 ^ 32)%N -> (20 * N.to_nat idx + 20 <= List.length (i_pieces i))%nat ->
  let ih := compute_info_hash sha1 i in
  let evs := from_near t0 h (opening ++ rest) in
  let c := opened_at now evs [] in
  let blks := piece_count (N.min (i_piece_length i) (total - idx * i_piece_length i)) 16384 in
  let data := List.concat (blocks (told rest)) in
  (11 * List.length (sent_bytes evs) + 11 < fuel)%nat -> (22 + 10 * List.length (sent_bytes evs) <= n)%nat ->
  near ih some_size now t0 h opening rest -> blocks (told opening) = [] -> countN (blocks (told rest)) = blks ->
  sha1 data = firstn 20 (skipn (20 * N.to_nat idx) (i_pieces i)) ->
  download sha1 p fuel (Some (socket_of n c)) pid ep i idx = Ret (Ok data) /\
  exists k, piece_ends ih False blks (attempts k c) (Received data) /\ (over_at k c <= last_time t0 (opening ++ rest) + 200)%N.
Proof.
  intros sha1 p fuel n pid ep i idx total now t0 h opening rest HP HT H1 H2 H3 H4 H5 H6 ih evs c blks data HF HN NR BO BR HS.
  destruct (near_cooperates some_size (fun _ _ H => H) ih now t0 h opening rest fuel n NR HN HF) as (op & rs & CO & EO & ER & LF & AT & OV).
  assert (BO' : blocks op = []) by (rewrite <- BO; apply blocks_somes; now rewrite told_somes).
  assert (BR' : blocks rs = blocks (told rest)) by (apply blocks_somes; now rewrite told_somes).
  assert (D : download sha1 p fuel (Some (socket_of n c)) pid ep i idx = Ret (Ok data)).
  { unfold data. rewrite <- BR'. apply (c48 sha1 p fuel (socket_of n c) pid ep i idx total op rs); auto.
    - rewrite BR'. exact BR.
    - rewrite BR'. exact HS. }
  split; [exact D|].
  apply (c72_piece sha1 p fuel n now evs [] pid ep i idx total HP HT H1 H2 H3 H4 H5 H6 HF HN) in D as (k & en & _ & E & R & _).
  inversion R as [| | | | |d Hd|]; subst. exists k. split.
  - eapply ends_uncut; [|exact E]. intros (m & Hm). discriminate Hm.
  - eapply (near_in_time some_size) with (l := blocks (told rest)); [auto|exact NR|exact HN|exact HF|exact piece_fun| | |exact E].
    + intros op1 rs1 a y EO1 ER1 EA. unfold piece_blocks.
      replace (blocks (told rest)) with (blocks rs1) by (apply blocks_somes; now rewrite told_somes).
      assert (Z : blocks op1 = []) by (rewrite <- BO; apply blocks_somes; now rewrite told_somes).
      rewrite EA in Z. unfold blocks in *. rewrite flat_map_app in *. apply app_eq_nil in Z as [_ ->]. reflexivity.
    + intros k' e _. exact BR.
Qed.
Lemma c73_metadata : forall fuel n pid ep ih size now t0 h opening rest l i, parse_socket_addr ep <> None ->
  (0 < size)%N -> (size < 2 ^ 64)%N ->
  let evs := from_near t0 h (opening ++ rest) in
  let c := opened_at now evs [] in
  (11 * List.length (sent_bytes evs) + 11 < fuel)%nat -> (22 + 10 * List.length (sent_bytes evs) <= n)%nat ->
  near ih (this_size size) now t0 h opening rest -> metadata_blocks (told opening) [] -> metadata_blocks (told rest) l ->
  countN l = piece_count size 16384 -> info_from_bytes (List.concat l) = Ret (Ok i) ->
  get_info fuel (Some (socket_of n c)) pid ih ep = Ret (Ok i) /\
  exists k d, info_ends ih False (attempts k c) (Received d) /\ info_from_bytes d = Ret (Ok i) /\ (over_at k c <= last_time t0 (opening ++ rest) + 200)%N.
Proof.
  intros fuel n pid ep ih size now t0 h opening rest l i HP H1 H2 evs c HF HN NR BO BR HC HI.
  assert (SZ : forall k e, this_size size k e -> k <> 0%N) by (intros k e [-> _]; lia).
  destruct (near_cooperates (this_size size) SZ ih now t0 h opening rest fuel n NR HN HF) as (op & rs & CO & EO & ER & LF & AT & OV).
  assert (MO : forall op1, somes op1 = msgs opening -> metadata_blocks op1 []).
  { intros op1 E1. apply meta_somes. rewrite E1, <- told_somes. now apply meta_somes in BO. }
  assert (MR : forall rs1, somes rs1 = msgs rest -> metadata_blocks rs1 l).
  { intros rs1 E1. apply meta_somes. rewrite E1, <- told_somes. now apply meta_somes in BR. }
  assert (D : get_info fuel (Some (socket_of n c)) pid ih ep = Ret (Ok i)).
  { apply (c49 fuel (socket_of n c) pid ep ih size op rs l i); auto. }
  split; [exact D|].
  assert (GR : forall op1 rs1 a y, somes op1 = msgs opening -> somes rs1 = msgs rest -> op1 = a ++ y -> metadata_blocks (y ++ rs1) l).
  { intros op1 rs1 a y EO1 ER1 EA. apply metadata_app; [|now apply MR]. apply (metadata_none a y []); [|reflexivity]. rewrite <- EA. now apply MO. }
  apply (c72_metadata fuel n now evs [] pid ih ep HP HF HN) in D as (k & en & _ & E & R & _).
  inversion R as [| | | | |d i' Hd|]; subst.
  assert (T : (over_at k c <= last_time t0 (opening ++ rest) + 200)%N).
  { eapply (near_in_time (this_size size)); [exact SZ|exact NR|exact HN|exact HF|exact meta_fun|exact GR| |exact E]. intros k' e [-> _]. exact HC. }
  exists k, d. split; [|split; [exact Hd|exact T]]. eapply ends_uncut; [|exact E]. intros (m & Hm). discriminate Hm.
Qed.

(** ** A near seed *)
Lemma c73_seed : forall sha1 p fuel n pid pid' ep i idx total blks now t0 l,
  parse_socket_addr ep <> None -> get_total_length p i = Ret total ->
  (0 < i_piece_length i)%N -> (idx < piece_count total (i_piece_length i))%N -> (total + i_piece_length i <= 2 ^ 64)%N ->
  (idx < 2 ^ 32)%N -> (i_piece_length i < 2 ^ 32)%N -> (20 * N.to_nat idx + 20 <= List.length (i_pieces i))%nat ->
  (forall b, List.length (sha1 b) = 20%nat) -> List.length pid' = 20%nat ->
  Forall (fun b => lenN b <= 16384)%N blks ->
  countN blks = piece_count (N.min (i_piece_length i) (total - idx * i_piece_length i)) 16384 ->
  sha1 (List.concat blks) = firstn 20 (skipn (20 * N.to_nat idx) (i_pieces i)) ->
  let ih := compute_info_hash sha1 i in
  let evs := from_near t0 (handshake_layout ih pid') l in
  let c := opened_at now evs [] in
  map snd l = seed_messages idx blks -> (now < t0 <= now + 100)%N -> steady 1000 t0 l -> (last_time t0 (firstn 2 l) < t0 + 900)%N ->
  (11 * List.length (sent_bytes evs) + 11 < fuel)%nat -> (22 + 10 * List.length (sent_bytes evs) <= n)%nat ->
  download sha1 p fuel (Some (socket_of n c)) pid ep i idx = Ret (Ok (List.concat blks)) /\
  exists k, piece_ends ih False (countN blks) (attempts k c) (Received (List.concat blks)) /\ (over_at k c <= last_time t0 l + 200)%N.
Proof.
  intros sha1 p fuel n pid pid' ep i idx total blks now t0 l HP HT H1 H2 H3 H4 H5 H6 HL PL SB BC HS ih evs c ML SO SD L9 HF HN.
  destruct (layout_parts ih pid' (HL _) PL) as (L1 & L2 & L3).
  pose proof (seed_blocks idx blks 0) as EB. pose proof (seed_behaves idx blks) as WB.
  destruct l as [|[ta ma] [|[tb mb] rest]]; try discriminate ML. unfold seed_messages in ML. cbn [map snd] in ML.
  injection ML as -> -> MR.
  set (opening := [(ta, (1%N, [])); (tb, (20%N, extended_body))] : stamped).
  assert (TR : blocks (told rest) = blks).
  { transitivity (blocks (map Some (map snd rest))); [|rewrite MR; exact EB]. apply blocks_somes. rewrite told_somes. clear. unfold msgs. induction (map snd rest); [reflexivity|]. cbn. unfold somes in *. now f_equal. }
  assert (NR : near ih some_size now t0 (handshake_layout ih pid') opening rest).
  { assert (IN : forall t r, In (t, r) (opening ++ rest) -> In r (seed_messages idx blks)).
    { intros t r I. apply (in_map snd) in I. rewrite map_app in I. rewrite MR in I. exact I. }
    constructor; auto.
    - cbn [opening List.length last_time firstn] in *. assert (tb - t0 < 9 * 100)%N by lia.
      pose proof (N.div_lt_upper_bound (tb - t0) 100 9 ltac:(lia) ltac:(lia)). lia.
    - exists ta, []. now left.
    - destruct extended_states as [e E]. exists tb, (20%N, extended_body), extended_msg, 1%N, e. split; [right; now left|]. split; [apply extended_parsed|exact E].
    - intros t r I. apply WB. eapply IN; eauto.
    - intros t r I. specialize (IN t r I). split.
      + destruct IN as [<-|[<-|J]]; [reflexivity|reflexivity|]. apply in_map_iff in J as (kb & <- & _). reflexivity.
      + destruct IN as [<-|[<-|J]]; [reflexivity|reflexivity|]. apply in_map_iff in J as ([k b] & <- & J). apply in_combine_r in J. rewrite Forall_forall in SB.
        specialize (SB b J). cbn [fst snd]. rewrite !app_length, !be_length. unfold lenN in SB. change (2 ^ 24)%N with 16777216%N. lia. }

  pose proof (c73_piece sha1 p fuel n pid ep i idx total now t0 (handshake_layout ih pid') opening rest HP HT H1 H2 H3 H4 H5 H6 HF HN NR eq_refl) as C.
  cbn zeta in C. rewrite TR in C. rewrite BC. exact (C BC HS).
Qed.
