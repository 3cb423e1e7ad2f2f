(** ProofExactly: proofs for C70 *)
From Verif Require Import Base Utf8 ModelBencode ModelMessages ModelTorrent ModelTracker ModelStream ModelPeer
  SpecBencode SpecMessages SpecWriter SpecPieces SpecStream SpecPeer SpecSession SpecWrites SpecVerdict
  ProofBase ProofMessages ProofPieces ProofStream ProofPeer ProofSession ProofOutput ProofWrites ProofVerdict ProofHear ProofTold.

(** ** One socket, one ending *)
Section One.
  Variable s : stream.
  Variable ih : bytes.
  Variable cut : Prop.
  Variable got : list heard -> list bytes -> Prop.
  Variable needed : N -> N.
  Variable can_ask : list heard -> Prop.
  Hypothesis got_fun : forall b l l', got b l -> got b l' -> l = l'.
  Let pending := pending ih cut got needed can_ask.
  Let ends := ends ih cut got needed can_ask.

  Lemma one_ending : forall c en c' en', told_by s c -> ends c en -> told_by s c' -> ends c' en' -> c = c' /\ en = en'.
  Proof.
    assert (K : forall c en c' en', told_by s c -> ends c en -> told_by s c' -> ends c' en' -> (List.length c <= List.length c')%nat -> c = c').
    { intros c en c' en' [D _] E [D' _] E' L. destruct (starts_cases _ _ _ (delivers_both s c c' D D' L)) as [B|B]; [|exact B].
      exfalso. eapply (pending_not_ended ih cut got needed can_ask); [..|exact E]; auto. eapply ends_pending; eauto. }
    intros c en c' en' T E T' E'. assert (EQ : c = c').
    { destruct (Nat.le_ge_cases (List.length c) (List.length c')) as [L|L]; [eapply K; eauto|symmetry; eapply K; eauto]. }
    subst c'. split; [reflexivity|]. eapply ends_fun; eauto.
  Qed.
  Lemma ended_not_stuck : forall c en c' id body, told_by s c -> ends c en -> pending c' -> Forall legible c' ->
    delivers s (c' ++ [Some (id, body)]) -> unreadable body id \/ endless body id -> False.
  Proof.
    intros c en c' id body [D F] E P F' D' U. destruct (Nat.le_gt_cases (List.length c) (List.length c')) as [L|L].
    - pose proof (delivers_both s c c' D (delivers_starts _ _ _ D') L) as S.
      eapply (pending_not_ended ih cut got needed can_ask); [..|exact E]; auto. eapply pending_starts; eauto.
    - assert (S : starts (c' ++ [Some (id, body)]) c) by (apply (delivers_both s); auto; rewrite app_length; cbn [List.length]; unfold heard in *; lia).
      destruct S as [z ->]. apply Forall_app in F as [F _]. apply Forall_app in F as [_ F]. inversion F as [|o l LG _ EQ]. destruct (LG _ _ eq_refl). tauto.
  Qed.
  Lemma one_fate : forall c c', Forall legible c -> Forall legible c' -> then_aborts s c -> then_hangs s c' -> False.
  Proof.
    intros c c' F F' (_ & id & body & D & U) (_ & id' & body' & D' & U').
    assert (K : forall c id body c' id' body', Forall legible c' -> delivers s (c ++ [Some (id, body)]) -> delivers s (c' ++ [Some (id', body')]) ->
      (unreadable body id \/ endless body id) -> (List.length c < List.length c')%nat -> False).
    { clear. intros c id body c' id' body' F D D' U L.
      assert (S : starts (c ++ [Some (id, body)]) c') by (apply (delivers_both s); auto; [exact (delivers_starts _ _ _ D')|rewrite app_length; cbn [List.length]; unfold heard in *; lia]).
      destruct S as [z ->]. apply Forall_app in F as [F _]. apply Forall_app in F as [_ F]. inversion F as [|o l LG _ EQ]. destruct (LG _ _ eq_refl). tauto. }
    destruct (Nat.lt_trichotomy (List.length c) (List.length c')) as [L|[L|L]].
    - exact (K c id body c' id' body' F' D D' (or_introl U) L).
    - assert (EQ : c ++ [Some (id, body)] = c' ++ [Some (id', body')]).
      { unfold delivers in D, D'. rewrite <- D, <- D'. rewrite !app_length, L. reflexivity. }
      apply app_inj_tail in EQ as [_ [= <- <-]]. destruct (c17 body 0 id) as (A & B & _). apply A in U. apply B in U'. congruence.
    - exact (K c' id' body' c id body F D' D (or_intror U') L).
  Qed.
End One.

(** ** Blocks *)
Lemma piece_heard : forall b l r m, piece_blocks b l -> parsed r m ->
  piece_blocks (b ++ [Some r]) (l ++ if is_request_message m then [get_content_data m] else []).
Proof.
  intros b l [id body] m <- P. unfold piece_blocks. rewrite blocks_app. f_equal. destruct (block_message id body m P) as (B1 & B2 & _).
  cbn [blocks flat_map]. rewrite app_nil_r. destruct ((id =? 6)%N || (id =? 7)%N) eqn:E.
  - assert (F : is_request_message m = true) by (apply B1; apply orb_true_iff in E; rewrite !N.eqb_eq in E; exact E). rewrite F, (B2 F). reflexivity.
  - apply orb_false_iff in E. rewrite !N.eqb_neq in E. destruct (is_request_message m); [|reflexivity]. destruct (proj1 B1 eq_refl); lia.
Qed.
Lemma piece_silent : forall b l o, piece_blocks b l -> legible o -> silent o -> piece_blocks (b ++ [o]) l.
Proof.
  intros b l o <- L S. unfold piece_blocks. rewrite blocks_app. destruct o as [[id body]|]; cbn [blocks flat_map]; [|now rewrite !app_nil_r].
  destruct (readable (id, body) 0 ltac:(apply (L _ _ eq_refl)) ltac:(apply (L _ _ eq_refl))) as (om & RO & PM).
  destruct ((id =? 6)%N || (id =? 7)%N) eqn:E; [|now rewrite !app_nil_r]. exfalso. destruct om as [m|]; [exact (S _ _ eq_refl (PM _ eq_refl))|].
  cbn [reading_of snd fst] in RO. apply (c17 body 0 id) in RO as (-> & _). discriminate.
Qed.
Lemma meta_app : forall a la, metadata_blocks a la -> forall b lb, metadata_blocks b lb -> metadata_blocks (a ++ b) (la ++ lb).
Proof. intros a la H. induction H; intros b lb B; cbn [app]; [auto|constructor; auto|econstructor; eauto|constructor; auto]. Qed.
Lemma meta_heard : forall b l r m, metadata_blocks b l -> parsed r m ->
  metadata_blocks (b ++ [Some r]) (l ++ if is_extension_data_message m then [get_content_data m] else []).
Proof.
  intros b l r m B P. apply meta_app; [auto|]. destruct (is_extension_data_message m) eqn:E; unfold is_extension_data_message in E; unfold get_content_data.
  - destruct (msg_content m) as [|e| | | |] eqn:C; try discriminate. econstructor; eauto; [|constructor].
    unfold ex_is_data in E. destruct (ex_msg_type e) as [k|]; [|discriminate]. apply N.eqb_eq in E. congruence.
  - apply mb_other; [|constructor]. intros m' e P' C'. destruct (parsed_unique _ _ _ P P') as [C _]. rewrite C, C' in E.
    unfold ex_is_data in E. intros T. rewrite T in E. discriminate.
Qed.
Lemma meta_silent : forall b l o, metadata_blocks b l -> legible o -> silent o -> metadata_blocks (b ++ [o]) l.
Proof.
  intros b l o B _ S. rewrite <- (app_nil_r l). apply meta_app; [auto|]. destruct o as [r|]; [|constructor; constructor].
  apply mb_other; [|constructor]. intros m e P. exfalso. exact (S _ _ eq_refl P).
Qed.
Lemma meta_fun : forall b l l', metadata_blocks b l -> metadata_blocks b l' -> l = l'.
Proof.
  intros b l l' H. revert l'. induction H as [|c l H IH|r m e c l P C T H IH|r c l N H IH]; intros l' H'.
  - inversion H'. reflexivity.
  - inversion H'; subst. auto.
  - inversion H' as [| |r' m' e' c' l2 P' C' T' H2|r' c' l2 N' H2]; subst.
    + destruct (parsed_unique _ _ _ P P') as [CC _]. rewrite C, C' in CC. injection CC as <-. f_equal. auto.
    + exfalso. exact (N' _ _ P C T).
  - inversion H' as [| |r' m' e' c' l2 P' C' T' H2|r' c' l2 N' H2]; subst; [|auto]. exfalso. exact (N _ _ P' C' T').
Qed.
Lemma announced_size : forall c n e, announced c n e -> (n < 2 ^ 64)%N.
Proof. intros c n e H. induction H as [c r m n e P S|c o n e A IH S]; [eapply parsed_size; eauto|auto]. Qed.
Lemma meta_needed : forall n, n <> 0%N -> (0 < piece_count n 16384)%N.
Proof. intros n NZ. destruct (count_bounds n 16384 ltac:(lia)) as (C & _). nia. Qed.
Lemma tracks_named : forall s c x, tracks s c x -> (named c <-> hm_get (p_extensions x) (s2b "ut_metadata") <> None).
Proof.
  intros s c x (_ & _ & A). unfold named. split.
  - intros (n & e & B & H). destruct A as [A|(_ & _ & A)]; [|exfalso; exact (A _ _ B)]. destruct (announced_fun _ _ _ _ _ A B) as [_ ->]. exact H.
  - intros H. destruct A as [A|(_ & E & _)]; [eauto|]. exfalso. rewrite E in H. apply H. reflexivity.
Qed.
Lemma after_incoming : forall s c, (List.length (incoming (after s c)) <= List.length (incoming s))%nat.
Proof.
  intros s c. induction c as [|o c IH] using rev_ind; [apply Nat.le_refl|]. rewrite after_snoc. destruct (stream_incoming (after s c)) as [A _]. lia.
Qed.

(** ** Whole sessions *)
Lemma piece_told : forall sha1 p fuel s pid ep i idx total,
  parse_socket_addr ep <> None -> get_total_length p i = Ret total ->
  (0 < i_piece_length i)%N -> (idx < piece_count total (i_piece_length i))%N -> (total + i_piece_length i <= 2 ^ 64)%N ->
  (idx < 2 ^ 32)%N -> (i_piece_length i < 2 ^ 32)%N -> (20 * N.to_nat idx + 20 <= List.length (i_pieces i))%nat ->
  (11 * List.length (incoming s) + 11 < fuel)%nat ->
  let ih := compute_info_hash sha1 i in
  let k := piece_count (N.min (i_piece_length i) (total - idx * i_piece_length i)) 16384 in
  match download sha1 p fuel (Some s) pid ep i idx with
  | Ret r => exists c en, told_by s c /\ piece_ends ih (third_write_fails s) k c en /\
      piece_result sha1 (firstn 20 (skipn (20 * N.to_nat idx) (i_pieces i))) en r
  | Panic => exists c, piece_pending ih (third_write_fails s) k c /\ then_aborts s c
  | OutOfFuel => exists c, piece_pending ih (third_write_fails s) k c /\ then_hangs s c
  end.
Proof.
  intros sha1 p fuel s pid ep i idx total EP TL H1 H2 H3 H4 H5 H6 FU ih k. unfold download, connect.
  destruct (parse_socket_addr ep); [|tauto]. cbn [obind orbind]. fold ih. set (hash := firstn 20 (skipn (20 * N.to_nat idx) (i_pieces i))).
  destruct (count_bounds total (i_piece_length i) H1) as (_ & _ & B3). specialize (B3 idx H2).
  destruct (count_bounds (N.min (i_piece_length i) (total - idx * i_piece_length i)) 16384 ltac:(lia)) as (K1 & _ & K3). fold k in K1, K3.
  assert (KP : (0 < k)%N) by nia.
  pose proof (init_told s ih (third_write_fails s) piece_blocks (fun _ => k) (fun _ => True) pid ltac:(tauto)) as IT.
  destruct (init_peer (peer_new pid s ih)) as [[[u|e] x]| |]; cbn [obind]; [| |exact IT|exact IT].
  2: { destruct IT as (c & en & T & E & M). exists c, en. split; [auto|]. split; [exact E|].
       destruct M as [[-> ->]|[[-> ->]|[-> ->]]]; constructor. }
  destruct IT as (h & a & n & O & TB & T). rewrite TL. cbn [obind]. unfold download_block, get_piece_length. rewrite real_length by auto.
  cbn [obind]. unfold BLOCK_SIZE. rewrite step_by_count by lia. cbn [obind]. fold k.
  pose proof (execute_told s ih (third_write_fails s) piece_blocks (fun _ => k) (fun _ => True) is_request_message piece_heard piece_silent
    ltac:(intros b l l' <- <-; reflexivity) (next_block p 16384 idx total (i_piece_length i)) h a n) as ET.
  assert (NT : forall c z m, tracks s c z -> (m < k)%N ->
    (True /\ exists y, next_block p 16384 idx total (i_piece_length i) z m = Ret y /\ same_but_written z y) \/
    (~ True /\ next_block p 16384 idx total (i_piece_length i) z m = Panic)).
  { intros c z m _ L. left. split; [exact I|]. unfold next_block. rewrite block_req by auto. cbn [obind]. eexists. split; [reflexivity|apply send_same]. }
  specialize (ET NT O fuel [] x (buffer_new k) 0%N). rewrite app_nil_r in ET.
  pose proof (after_incoming s (h :: a)) as AI.
  assert (G0 : forall b', starts b' [] -> going piece_blocks (fun _ => k) (fun _ => True) n (h :: a) b').
  { intros b' SB. apply starts_nil in SB. subst b'. split; [intros l <-; cbn; lia|]. split; [rewrite app_nil_r; apply O|]. split; [auto|].
    intros [[L _]|(q & o & z & E & _)]; [discriminate|destruct q; discriminate]. }
  specialize (ET T TB G0 eq_refl eq_refl KP (af_none _) idle_nil ltac:(lia) ltac:(lia)).
  destruct (execute fuel is_request_message (next_block p 16384 idx total (i_piece_length i)) x (buffer_new k) 0) as [[r y]| |]; cbn [obind].
  - destruct ET as (c & en & TC & EC & M). destruct r as [d|[|]]; subst en.
    + unfold verify_piece. rewrite get_piece_spec. destruct (Nat.leb_spec (20 * N.to_nat idx + 20) (List.length (i_pieces i))); [|lia]. cbn [obind].
      fold hash. destruct (bytes_eqb (sha1 d) hash) eqn:Q; cbn [negb]; exists c, (Received d); (split; [auto|]); (split; [exact EC|]); constructor;
        [apply bytes_eqb_eq; exact Q|]. intros X. apply bytes_eqb_eq in X. congruence.
    + exists c, ChokedUs. split; [auto|]. split; [exact EC|constructor].
    + exists c, FellSilent. split; [auto|]. split; [exact EC|constructor].
  - destruct ET as [A|(c & TC & EC)]; [exact A|]. exfalso. inversion EC; subst. tauto.
  - exact ET.
Qed.

Lemma info_told : forall fuel s pid ih ep, parse_socket_addr ep <> None -> (11 * List.length (incoming s) + 11 < fuel)%nat ->
  let cut := third_write_fails s in
  match get_info fuel (Some s) pid ih ep with
  | Ret r => exists c en, told_by s c /\ info_ends ih cut c en /\ info_result en r
  | Panic => (exists c, info_pending ih cut c /\ then_aborts s c) \/
      exists c en, told_by s c /\ info_ends ih cut c en /\ (en = Nameless \/ exists d, en = Received d /\ info_from_bytes d = Panic)
  | OutOfFuel => (exists c, info_pending ih cut c /\ then_hangs s c) \/
      exists c d, told_by s c /\ info_ends ih cut c (Received d) /\ info_from_bytes d = OutOfFuel
  end.
Proof.
  intros fuel s pid ih ep EP FU cut. unfold get_info, connect. destruct (parse_socket_addr ep); [|tauto]. cbn [obind orbind].
  set (needed := fun n => piece_count n 16384).
  pose proof (init_told s ih cut metadata_blocks needed named pid ltac:(unfold cut; tauto)) as IT.
  destruct (init_peer (peer_new pid s ih)) as [[[u|e] x]| |]; cbn [obind]; [| |left; exact IT|left; exact IT].
  2: { destruct IT as (c & en & T & E & M). exists c, en. split; [auto|]. split; [exact E|].
       destruct M as [[-> ->]|[[-> ->]|[-> ->]]]; constructor. }
  destruct IT as (h & a & n & O & TB & T). unfold download_info, get_metadata_size, INFO_PIECE_SIZE.
  assert (SZ : p_metadata_size x = n /\ (n < 2 ^ 64)%N /\ n <> 0%N).
  { pose proof O as (_ & _ & _ & _ & _ & (e & A) & NZ & _). destruct T as (_ & _ & [B|(_ & _ & B)]); [|exfalso; exact (B _ _ A)].
    destruct (announced_fun _ _ _ _ _ A B) as [<- _]. split; [auto|]. split; [eapply announced_size; eauto|auto]. }
  destruct SZ as (-> & L64 & NZ). rewrite step_by_count by lia. cbn [obind]. change (piece_count n 16384) with (needed n).
  destruct (count_bounds n 16384 ltac:(lia)) as (K1 & _ & K3). change (piece_count n 16384) with (needed n) in K1, K3.
  pose proof (execute_told s ih cut metadata_blocks needed named is_extension_data_message meta_heard meta_silent meta_fun next_piece h a n) as ET.
  assert (NT : forall c z m, tracks s c z -> (m < needed n)%N ->
    (named c /\ exists y, next_piece z m = Ret y /\ same_but_written z y) \/ (~ named c /\ next_piece z m = Panic)).
  { intros c z m TZ L. pose proof (tracks_named _ _ _ TZ) as NM. unfold next_piece, get_extension_id_by_name.
    destruct (hm_get (p_extensions z) (s2b "ut_metadata")) as [id|]; cbn [obind]; [left|right].
    - split; [apply NM; discriminate|]. specialize (K3 m L). destruct (c15 id m ltac:(lia)) as (msg & -> & _). cbn [obind]. eexists. split; [reflexivity|apply send_same].
    - split; [|reflexivity]. intros Q. apply NM in Q. congruence. }
  specialize (ET NT O fuel [] x (buffer_new (needed n)) 0%N). rewrite app_nil_r in ET.
  pose proof (after_incoming s (h :: a)) as AI. pose proof (meta_needed n NZ) as KP. change (piece_count n 16384) with (needed n) in KP.
  assert (G0 : forall b', starts b' [] -> going metadata_blocks needed named n (h :: a) b').
  { intros b' SB. apply starts_nil in SB. subst b'. split; [intros l ML; inversion ML; cbn; lia|]. split; [rewrite app_nil_r; apply O|].
    split; [intros (b' & o & k & l & E & _); destruct b'; discriminate|].
    intros [[L _]|(q & o & z & E & _)]; [discriminate|destruct q; discriminate]. }
  specialize (ET T TB G0 mb_nil eq_refl KP (af_none _) idle_nil ltac:(lia) ltac:(lia)).
  destruct (execute fuel is_extension_data_message next_piece x (buffer_new (needed n)) 0) as [[r y]| |]; cbn [obind].
  - destruct ET as (c & en & TC & EC & M). destruct r as [d|[|]]; subst en.
    + destruct (info_from_bytes d) as [[v|e]| |] eqn:D; cbn [obind].
      * exists c, (Received d). split; [auto|]. split; [exact EC|]. constructor. exact D.
      * exists c, (Received d). split; [auto|]. split; [exact EC|]. constructor. exact D.
      * right. exists c, (Received d). split; [auto|]. split; [exact EC|]. right. eauto.
      * right. exists c, d. auto.
    + exists c, ChokedUs. split; [auto|]. split; [exact EC|constructor].
    + exists c, FellSilent. split; [auto|]. split; [exact EC|constructor].
  - destruct ET as [A|(c & TC & EC)]; [left; exact A|]. right. exists c, Nameless. auto.
  - left. exact ET.
Qed.

Lemma result_fun : forall sha1 hash en r r', piece_result sha1 hash en r -> piece_result sha1 hash en r' -> r = r'.
Proof. intros sha1 hash en r r' A B. destruct A; inversion B; subst; congruence. Qed.
Lemma info_result_fun : forall en r r', info_result en r -> info_result en r' -> r = r'.
Proof. intros en r r' A B. destruct A; inversion B; subst; congruence. Qed.

Lemma c70_piece : forall sha1 p fuel s pid ep i idx total,
  parse_socket_addr ep <> None -> get_total_length p i = Ret total ->
  (0 < i_piece_length i)%N -> (idx < piece_count total (i_piece_length i))%N -> (total + i_piece_length i <= 2 ^ 64)%N ->
  (idx < 2 ^ 32)%N -> (i_piece_length i < 2 ^ 32)%N -> (20 * N.to_nat idx + 20 <= List.length (i_pieces i))%nat ->
  (11 * List.length (incoming s) + 11 < fuel)%nat ->
  let ih := compute_info_hash sha1 i in
  let cut := third_write_fails s in
  let k := piece_count (N.min (i_piece_length i) (total - idx * i_piece_length i)) 16384 in
  let hash := firstn 20 (skipn (20 * N.to_nat idx) (i_pieces i)) in
  (forall r, download sha1 p fuel (Some s) pid ep i idx = Ret r <->
     exists c en, told_by s c /\ piece_ends ih cut k c en /\ piece_result sha1 hash en r) /\
  (download sha1 p fuel (Some s) pid ep i idx = Panic <-> exists c, piece_pending ih cut k c /\ then_aborts s c) /\
  (download sha1 p fuel (Some s) pid ep i idx = OutOfFuel <-> exists c, piece_pending ih cut k c /\ then_hangs s c).
Proof.
  intros sha1 p fuel s pid ep i idx total EP TL H1 H2 H3 H4 H5 H6 FU ih cut k hash.
  pose proof (piece_told sha1 p fuel s pid ep i idx total EP TL H1 H2 H3 H4 H5 H6 FU) as T. cbn zeta in T. fold ih k hash cut in T.
  assert (GF : forall b l l', piece_blocks b l -> piece_blocks b l' -> l = l') by (intros b l l' <- <-; reflexivity).
  pose proof (one_ending s ih cut piece_blocks (fun _ => k) (fun _ => True) GF) as OE.
  pose proof (ended_not_stuck s ih cut piece_blocks (fun _ => k) (fun _ => True)) as NS.
  assert (X1 : forall c en c', told_by s c -> piece_ends ih cut k c en -> piece_pending ih cut k c' -> then_aborts s c' -> False).
  { intros c en c' A B C (F & id & body & D & U). eapply NS; eauto. }
  assert (X2 : forall c en c', told_by s c -> piece_ends ih cut k c en -> piece_pending ih cut k c' -> then_hangs s c' -> False).
  { intros c en c' A B C (F & id & body & D & U). eapply NS; eauto. }
  assert (X3 : forall c c', then_aborts s c -> then_hangs s c' -> False).
  { intros c c' A B. eapply (one_fate s c c'); [apply A|apply B|exact A|exact B]. }
  destruct (download sha1 p fuel (Some s) pid ep i idx) as [r0| |].
  - destruct T as (c & en & A & B & C). split; [|split].
    + intros r. split; [intros [= <-]; eauto 6|]. intros (c' & en' & A' & B' & C'). destruct (OE _ _ _ _ A B A' B') as [<- <-].
      now rewrite (result_fun _ _ _ _ _ C C').
    + split; [discriminate|]. intros (c' & P & U). exfalso. eapply X1; eauto.
    + split; [discriminate|]. intros (c' & P & U). exfalso. eapply X2; eauto.
  - destruct T as (c & A & B). split; [|split].
    + intros r. split; [discriminate|]. intros (c' & en' & A' & B' & C'). exfalso. eapply X1; eauto.
    + split; eauto.
    + split; [discriminate|]. intros (c' & P & U). exfalso. eapply X3; eauto.
  - destruct T as (c & A & B). split; [|split].
    + intros r. split; [discriminate|]. intros (c' & en' & A' & B' & C'). exfalso. eapply X2; eauto.
    + split; [discriminate|]. intros (c' & P & U). exfalso. eapply X3; eauto.
    + split; eauto.
Qed.

Lemma c70_metadata : forall fuel s pid ih ep, parse_socket_addr ep <> None -> (11 * List.length (incoming s) + 11 < fuel)%nat ->
  let cut := third_write_fails s in
  (forall r, get_info fuel (Some s) pid ih ep = Ret r <-> exists c en, told_by s c /\ info_ends ih cut c en /\ info_result en r) /\
  (get_info fuel (Some s) pid ih ep = Panic <-> (exists c, info_pending ih cut c /\ then_aborts s c) \/
     exists c en, told_by s c /\ info_ends ih cut c en /\ (en = Nameless \/ exists d, en = Received d /\ info_from_bytes d = Panic)) /\
  (get_info fuel (Some s) pid ih ep = OutOfFuel <-> (exists c, info_pending ih cut c /\ then_hangs s c) \/
     exists c d, told_by s c /\ info_ends ih cut c (Received d) /\ info_from_bytes d = OutOfFuel).
Proof.
  intros fuel s pid ih ep EP FU cut. pose proof (info_told fuel s pid ih ep EP FU) as T. cbn zeta in T. fold cut in T.
  pose proof (one_ending s ih cut metadata_blocks (fun n => piece_count n 16384) named meta_fun) as OE.
  pose proof (ended_not_stuck s ih cut metadata_blocks (fun n => piece_count n 16384) named) as NS.
  assert (X1 : forall c en c', told_by s c -> info_ends ih cut c en -> info_pending ih cut c' -> then_aborts s c' -> False).
  { intros c en c' A B C (F & id & body & D & U). eapply NS; eauto using meta_fun. }
  assert (X2 : forall c en c', told_by s c -> info_ends ih cut c en -> info_pending ih cut c' -> then_hangs s c' -> False).
  { intros c en c' A B C (F & id & body & D & U). eapply NS; eauto using meta_fun. }
  assert (X3 : forall c c', then_aborts s c -> then_hangs s c' -> False).
  { intros c c' A B. eapply (one_fate s c c'); [apply A|apply B|exact A|exact B]. }
  assert (R1 : forall en r, info_result en r -> en <> Nameless /\ forall d, en = Received d -> info_from_bytes d <> Panic /\ info_from_bytes d <> OutOfFuel).
  { intros en r H. destruct H; (split; [discriminate|]); intros d' [= <-]; split; congruence. }
  destruct (get_info fuel (Some s) pid ih ep) as [r0| |].
  - destruct T as (c & en & A & B & C). destruct (R1 _ _ C) as [R2 R3]. split; [|split].
    + intros r. split; [intros [= <-]; eauto 6|]. intros (c' & en' & A' & B' & C'). destruct (OE _ _ _ _ A B A' B') as [<- <-].
      now rewrite (info_result_fun _ _ _ C C').
    + split; [discriminate|]. intros [(c' & P & U)|(c' & en' & A' & B' & C')]; exfalso; [eapply X1; eauto|].
      destruct (OE _ _ _ _ A B A' B') as [<- <-]. destruct C' as [C'|(d & C' & D)]; [tauto|]. destruct (R3 d C'); tauto.
    + split; [discriminate|]. intros [(c' & P & U)|(c' & d & A' & B' & D)]; exfalso; [eapply X2; eauto|].
      destruct (OE _ _ _ _ A B A' B') as [<- ->]. destruct (R3 d eq_refl); tauto.
  - split; [|split].
    + intros r. split; [discriminate|]. intros (c' & en' & A' & B' & C'). exfalso. destruct (R1 _ _ C') as [R2 R3].
      destruct T as [(c & P & U)|(c & en & A & B & C)]; [eapply X1; eauto|]. destruct (OE _ _ _ _ A B A' B') as [<- <-].
      destruct C as [C|(d & C & D)]; [tauto|]. destruct (R3 d C); tauto.
    + split; auto.
    + split; [discriminate|]. intros [(c' & P & U)|(c' & d & A' & B' & D)]; exfalso; destruct T as [(c & P' & U')|(c & en & A & B & C)].
      * eapply X3; eauto.
      * eapply X2; eauto.
      * eapply X1; eauto.
      * destruct (OE _ _ _ _ A B A' B') as [<- ->]. destruct C as [C|(d' & [= <-] & D')]; [discriminate|congruence].
  - split; [|split].
    + intros r. split; [discriminate|]. intros (c' & en' & A' & B' & C'). exfalso. destruct (R1 _ _ C') as [R2 R3].
      destruct T as [(c & P & U)|(c & d & A & B & D)]; [eapply X2; eauto|]. destruct (OE _ _ _ _ A B A' B') as [<- <-]. destruct (R3 d eq_refl); tauto.
    + split; [discriminate|]. intros [(c' & P & U)|(c' & en' & A' & B' & C')]; exfalso; destruct T as [(c & P' & U')|(c & d & A & B & D)].
      * eapply X3; eauto.
      * eapply X1; eauto.
      * eapply X2; eauto.
      * destruct (OE _ _ _ _ A B A' B') as [<- <-]. destruct C' as [C'|(d' & [= <-] & D')]; [discriminate|congruence].
    + split; auto.
Qed.

Lemma c70_one : forall s ih cut c en c' en', told_by s c -> told_by s c' ->
  (forall k, piece_ends ih cut k c en -> piece_ends ih cut k c' en' -> c = c' /\ en = en') /\
  (info_ends ih cut c en -> info_ends ih cut c' en' -> c = c' /\ en = en').
Proof.
  intros s ih cut c en c' en' T T'. split.
  - intros k E E'. eapply (one_ending s ih cut piece_blocks (fun _ => k) (fun _ => True)); eauto. intros b l l' <- <-. reflexivity.
  - intros E E'. eapply (one_ending s ih cut metadata_blocks (fun n => piece_count n 16384) named meta_fun); eauto.
Qed.
