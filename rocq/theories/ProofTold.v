(** ProofTold: how sessions end (for C70) *)
From Verif Require Import Base Utf8 ModelBencode ModelMessages ModelTorrent ModelTracker ModelStream ModelPeer
  SpecBencode SpecMessages SpecWriter SpecPieces SpecStream SpecPeer SpecSession SpecWrites SpecVerdict
  ProofBase ProofMessages ProofPieces ProofStream ProofPeer ProofSession ProofOutput ProofWrites ProofVerdict ProofHear.

Lemma told_snoc : forall s c o, told_by s c -> o = next_heard s c -> legible o -> told_by s (c ++ [o]).
Proof.
  intros s c o [D F] E L. split; [apply delivers_snoc; auto|]. apply Forall_app. split; [auto|constructor; [auto|constructor]].
Qed.
Lemma told_aborts : forall s c id body, told_by s c -> Some (id, body) = next_heard s c -> unreadable body id -> then_aborts s c.
Proof. intros s c id body [D F] E U. split; [auto|]. exists id, body. split; [apply delivers_snoc; auto|auto]. Qed.
Lemma told_hangs : forall s c id body, told_by s c -> Some (id, body) = next_heard s c -> endless body id -> then_hangs s c.
Proof. intros s c id body [D F] E U. split; [auto|]. exists id, body. split; [apply delivers_snoc; auto|auto]. Qed.
Lemma tracks_ready : forall s c x, tracks s c x -> (is_ready x = true <-> willing c).
Proof.
  intros s c x (_ & U & A). unfold is_ready, willing. rewrite andb_true_iff, !negb_true_iff, N.eqb_neq. split.
  - intros [Z C]. split; [apply U; exact C|]. destruct A as [A|(Z' & _)]; [eauto|congruence].
  - intros [UC (n & e & B & NZ)]. split; [|apply U; exact UC]. destruct A as [A|(_ & _ & A)]; [|exfalso; exact (A _ _ B)].
    destruct (announced_fun _ _ _ _ _ A B) as [-> _]. exact NZ.
Qed.

Section Run.
  Variable s : stream.
  Variable ih : bytes.
  Variable cut : Prop.
  Variable got : list heard -> list bytes -> Prop.
  Variable needed : N -> N.
  Variable can_ask : list heard -> Prop.
  Let opened := opened ih cut.
  Let going := going got needed can_ask.
  Let pending := pending ih cut got needed can_ask.
  Let ends := ends ih cut got needed can_ask.

  Definition aborts : Prop := exists c, pending c /\ then_aborts s c.
  Definition hangs : Prop := exists c, pending c /\ then_hangs s c.

  Lemma rounds_told : forall r a x h, greeting ih h -> ~ cut -> tracks s (h :: a) x -> told_by s (h :: a) ->
    (List.length a + r = 10)%nat -> (forall a', starts a' a -> ~ willing (h :: a')) ->
    match init_rounds r x with
    | Ret (Ok _, y) => exists a' n, opened h a' n /\ told_by s (h :: a') /\ tracks s (h :: a') y
    | Ret (Err e, _) => e = MEPeerNotReady /\ exists c, told_by s c /\ ends c Unwilling
    | Panic => aborts
    | OutOfFuel => hangs
    end.
  Proof.
    induction r as [|r IH]; intros a x h G NC T TB L NW; cbn [init_rounds].
    - split; [reflexivity|]. exists (h :: a). split; [auto|]. apply en_unwilling; auto. lia.
    - assert (P : pending (h :: a)) by (apply pe_opening; auto; lia).
      remember (next_heard s (h :: a)) as o eqn:EO. unfold read_and_apply.
      pose proof (hear s (h :: a) x T) as H. rewrite <- EO in H.
      destruct H as [om x1 LG R T' _ _ _|id body E U R|id body E U R]; rewrite R; cbn [obind].
      + change (match om with Some m => apply_message x1 m | None => x1 end) with (then_apply om x1).
        pose proof (told_snoc _ _ _ TB EO LG) as TB'. cbn [app] in T', TB'.
        destruct (is_ready (then_apply om x1)) eqn:RD.
        * apply (tracks_ready _ _ _ T') in RD. pose proof RD as [UC (n & e & A & NZ)]. exists (a ++ [o]), n. split; [|auto].
          split; [auto|]. split; [auto|]. split; [destruct a; discriminate|]. split; [rewrite app_length; cbn [List.length]; lia|].
          split; [auto|]. split; [eauto|]. split; [auto|]. intros a' B. apply NW. eapply before_snoc; eauto.
        * apply (IH (a ++ [o])); auto.
          -- rewrite app_length. cbn [List.length]. lia.
          -- intros a' SA. apply starts_snoc in SA as [SA|SA]; [apply NW; exact SA|]. subst a'. intros W. apply (tracks_ready _ _ _ T') in W. congruence.
      + exists (h :: a). split; [exact P|]. eapply told_aborts; eauto. rewrite <- E. exact EO.
      + exists (h :: a). split; [exact P|]. eapply told_hangs; eauto. rewrite <- E. exact EO.
  Qed.

  Lemma init_told : forall pid, (cut <-> third_write_fails s) ->
    match init_peer (peer_new pid s ih) with
    | Ret (Ok _, y) => exists h a n, opened h a n /\ told_by s (h :: a) /\ tracks s (h :: a) y
    | Ret (Err e, _) => exists c en, told_by s c /\ ends c en /\
        ((e = MEHandshake /\ en = Refused) \/ (e = MEHandshakeMetadata /\ en = Cut) \/ (e = MEPeerNotReady /\ en = Unwilling))
    | Panic => aborts
    | OutOfFuel => hangs
    end.
  Proof.
    intros pid CT. set (x := peer_new pid s ih). pose proof (tracks_new pid s ih : tracks s [] x) as T0.
    pose proof (tracks_same _ _ _ _ T0 (send_same x (new_handshake (p_info_hash x) (p_id x)))) as T.
    rewrite init_shape. set (x0 := send_message x (new_handshake (p_info_hash x) (p_id x))) in *.
    assert (F0 : p_info_hash x0 = ih /\ p_active x0 = false) by (split; reflexivity). destruct F0 as [F1 F2].
    assert (TB0 : told_by s []) by (split; [reflexivity|constructor]).
    remember (next_heard s []) as o eqn:EO. pose proof (hear s [] x0 T) as H. rewrite <- EO in H.
    assert (TH : forall x1, read_and_apply x0 = Ret x1 -> fst (peer_send_metadata_handshake (send_message x1 new_interested)) = true <-> ~ cut).
    { intros x1 R1. destruct (third_fst x x1 R1) as [A B]. rewrite CT. change (p_stream x) with s in *. split; [intros E K; rewrite (A K) in E; discriminate|exact B]. }
    destruct H as [om x1 LG R T' M IHx AC|id body E U R|id body E U R].
    - assert (RA : read_and_apply x0 = Ret (then_apply om x1)) by (unfold read_and_apply; rewrite R; reflexivity).
      specialize (TH _ RA). rewrite RA. cbn [obind]. pose proof (told_snoc _ _ _ TB0 EO LG) as TB. cbn [app] in TB, T'.
      assert (G : is_active (then_apply om x1) = true <-> greeting ih o).
      { unfold is_active. destruct om as [m|]; cbn [then_apply].
        - destruct M as (r & -> & P). destruct (apply_fields r m x1 P) as (_ & _ & -> & _). rewrite IHx, F1, AC, F2.
          destruct r as [id body]. unfold handshake_id. cbn [fst snd]. destruct (N.eqb_spec id 19) as [->|NE].
          + rewrite bytes_eqb_eq. split.
            * intros E. exists body. split; [reflexivity|]. split; [|auto]. destruct (Nat.le_gt_cases 68 (List.length body)) as [K|K]; [auto|].
              exfalso. destruct (LG _ _ eq_refl) as [NU _]. apply NU. right; left. auto.
            * intros (h & [= <-] & _ & E). auto.
          + split; [discriminate|]. intros (h & [= -> _] & _). congruence.
        - rewrite AC, F2. split; [discriminate|]. intros (h & -> & L68 & _). exfalso.
          destruct (parsed_19 h 0 L68) as (hs & NR & _). eapply (M (19%N, h)); [reflexivity|exists 0%N; exact NR]. }
      destruct (is_active (then_apply om x1)) eqn:IA; cbn [negb].
      + assert (GO : greeting ih o) by (apply G; reflexivity).
        pose proof (meta_same (send_message (then_apply om x1) new_interested)) as MS.
        destruct (peer_send_metadata_handshake (send_message (then_apply om x1) new_interested)) as [ok x3]. cbn [fst snd] in *.
        destruct ok; cbn [negb].
        * assert (NC : ~ cut) by (apply TH; reflexivity).
          assert (T3 : tracks s [o] x3) by (eapply tracks_same; [exact T'|]; eapply same_trans; [apply send_same|exact MS]).
          pose proof (rounds_told 10 [] x3 o GO NC T3 TB eq_refl) as RT.
          assert (NW : forall a', starts a' [] -> ~ willing (o :: a')).
          { intros a' SA. apply starts_nil in SA. subst a'. intros [[b UC] _]. destruct GO as (h & -> & _). discriminate UC. }
          specialize (RT NW). destruct (init_rounds 10 x3) as [[[u|e] y]| |]; auto.
          -- destruct RT as (a & n & RT). eauto.
          -- destruct RT as (-> & c & TC & EC). exists c, Unwilling. auto 6.
        * assert (C : cut).
          { destruct (third_dec s) as [K|K]; [apply CT; exact K|]. exfalso. assert (Q : ~ cut) by (rewrite CT; exact K). apply TH in Q. discriminate. }
          exists [o], Cut. split; [auto|]. split; [apply en_cut; auto|auto].
      + exists [o], Refused. split; [auto|]. split; [|auto]. apply en_refused. intros GO. apply G in GO. discriminate.
    - assert (RA : read_and_apply x0 = Panic) by (unfold read_and_apply; rewrite R; reflexivity). rewrite RA. cbn [obind].
      exists []. split; [constructor|]. eapply told_aborts; eauto. rewrite <- E. exact EO.
    - assert (RA : read_and_apply x0 = OutOfFuel) by (unfold read_and_apply; rewrite R; reflexivity). rewrite RA. cbn [obind].
      exists []. split; [constructor|]. eapply told_hangs; eauto. rewrite <- E. exact EO.
  Qed.

  (** ** The exchange of blocks *)
  Variable filter : message -> bool.
  Hypothesis got_heard : forall b l r m, got b l -> parsed r m -> got (b ++ [Some r]) (l ++ if filter m then [get_content_data m] else []).
  Hypothesis got_silent : forall b l o, got b l -> legible o -> silent o -> got (b ++ [o]) l.
  Hypothesis got_fun : forall b l l', got b l -> got b l' -> l = l'.
  Variable next : peer -> N -> outcome peer.
  Variable h : heard.
  Variable a : list heard.
  Variable n : N.
  Hypothesis next_told : forall c x m, tracks s c x -> (m < needed n)%N ->
    (can_ask c /\ exists y, next x m = Ret y /\ same_but_written x y) \/ (~ can_ask c /\ next x m = Panic).
  Hypothesis opened_here : opened h a n.

  Definition ended (r : result bytes download_error) : Prop :=
    exists c en, told_by s c /\ ends c en /\
      match r with Ok d => en = Received d | Err ChokedPeer => en = ChokedUs | Err Idle => en = FellSilent end.

  Lemma incoming_after : forall c x, tracks s c x -> forall o, o = next_heard s c ->
    (List.length (incoming (after s (c ++ [o]))) <= List.length (incoming (after s c)))%nat /\
    (o <> None -> (List.length (incoming (after s (c ++ [o]))) < List.length (incoming (after s c)))%nat).
  Proof.
    intros c x _ o E. rewrite after_snoc. destruct (stream_incoming (after s c)) as [A B]. split; [exact A|]. intros NE.
    unfold next_heard in E. destruct (fst (read_stream (after s c))) as [v|] eqn:F; [exact (B v eq_refl)|]. cbn [option_map] in E. congruence.
  Qed.

  Lemma execute_told : forall fuel b x buf idle,
    tracks s (h :: a ++ b) x -> told_by s (h :: a ++ b) -> (forall b', starts b' b -> going n (h :: a) b') ->
    got b (map get_content_data (mb_buffer buf)) -> mb_capacity buf = needed n -> (lenN (mb_buffer buf) < needed n)%N ->
    asked_for got b (mb_expected_size buf) -> idle_is b idle -> (idle <= 10)%N ->
    (11 * List.length (incoming (after s (h :: a ++ b))) + 11 < fuel + N.to_nat idle)%nat ->
    match execute fuel filter next x buf idle with
    | Ret (r, _) => ended r
    | Panic => aborts \/ exists c, told_by s c /\ ends c Nameless
    | OutOfFuel => hangs
    end.
  Proof.
    induction fuel as [|fuel IH]; intros b x buf idle T TB GO G CAP LEN AF ID I10 FU; [lia|]. cbn [execute].
    assert (P : pending (h :: a ++ b)) by (eapply pe_blocks; eauto).
    remember (next_heard s (h :: a ++ b)) as o eqn:EO. pose proof (hear s (h :: a ++ b) x T) as H. rewrite <- EO in H.
    destruct H as [om x1 LG R T' M _ _|id body E U R|id body E U R]; rewrite R; cbn [obind].
    2: { left. exists (h :: a ++ b). split; [exact P|]. eapply told_aborts; eauto. rewrite <- E. exact EO. }
    2: { exists (h :: a ++ b). split; [exact P|]. eapply told_hangs; eauto. rewrite <- E. exact EO. }
    destruct (incoming_after _ _ T o EO) as [B1 B2].
    pose proof (told_snoc _ _ _ TB EO LG) as TB'. cbn [app] in T', TB', B1, B2.
    replace ((h :: a ++ b) ++ [o]) with (h :: a ++ (b ++ [o])) in * by (cbn [app]; now rewrite app_assoc).
    rewrite <- app_assoc in T', TB', B1, B2.
    set (b1 := match om with Some m => push_message filter buf m | None => buf end).
    set (i1 := match om with Some _ => 0%N | None => idle end).
    replace (match om with Some m => (apply_message x1 m, push_message filter buf m, 0%N) | None => (x1, buf, idle) end)
      with (then_apply om x1, b1, i1) by (destruct om; reflexivity).
    assert (FB : is_full buf = false) by (unfold is_full; apply N.eqb_neq; lia).
    assert (G1 : got (b ++ [o]) (map get_content_data (mb_buffer b1)) /\ mb_capacity b1 = needed n /\ (lenN (mb_buffer b1) <= needed n)%N /\
      mb_expected_size b1 = mb_expected_size buf).
    { unfold b1. destruct om as [m|].
      - destruct M as (r & -> & PR). unfold push_message. rewrite FB. cbn [negb]. rewrite andb_true_r.
        pose proof (got_heard _ _ _ _ G PR) as G'. destruct (filter m); cbn [mb_buffer mb_capacity mb_expected_size].
        + rewrite map_app. cbn [map]. split; [exact G'|]. split; [auto|]. split; [|auto]. rewrite lenN_app. change (lenN [m]) with 1%N. lia.
        + rewrite app_nil_r in G'. split; [exact G'|]. split; [auto|]. split; [lia|auto].
      - split; [apply got_silent; auto|]. split; [auto|]. split; [lia|auto]. }
    destruct G1 as (G1 & CAP1 & LEN1 & EX1). clearbody b1.
    assert (GB : forall b', starts_before b' (b ++ [o]) -> going n (h :: a) b') by (intros b' SB; apply GO; eapply before_snoc; eauto).
    assert (NE : b ++ [o] <> []) by (destruct b; discriminate).
    assert (CNT : countN (map get_content_data (mb_buffer b1)) = lenN (mb_buffer b1)) by (unfold countN, lenN; now rewrite map_length).
    destruct (is_full b1) eqn:FB1.
    { unfold is_full in FB1. apply N.eqb_eq in FB1. rewrite CAP1 in FB1. exists (h :: a ++ b ++ [o]), (Received (List.concat (map get_content_data (mb_buffer b1)))).
      split; [auto|]. split; [eapply en_received; eauto; congruence|]. unfold assemble_content. now rewrite flat_map_concat_map. }
    unfold is_full in FB1. apply N.eqb_neq in FB1. rewrite CAP1 in FB1.
    assert (LK : lacking got needed n (b ++ [o])).
    { intros l GL. rewrite (got_fun _ _ _ GL G1), CNT. exact FB1. }
    destruct T' as (RL' & U' & A').
    destruct (is_choked (then_apply om x1)) eqn:CH.
    { exists (h :: a ++ b ++ [o]), ChokedUs. split; [auto|]. split; [|reflexivity]. eapply en_choked; eauto.
      intros UC. apply U' in UC. unfold is_choked in CH. congruence. }
    assert (UC : unchoked (h :: a ++ b ++ [o])) by (apply U'; exact CH).
    pose proof (conj RL' (conj U' A') : tracks s (h :: a ++ b ++ [o]) (then_apply om x1)) as T'.
    assert (ID1 : idle_is (b ++ [o]) (i1 + 1)).
    { unfold i1. destruct om as [m|]; [|apply idle_silent; auto]. destruct M as (r & -> & PR). apply idle_heard. intros S. exact (S _ _ eq_refl PR). }
    (* the request *)
    assert (RQ : (exists b2 x3, request_next_message next b1 (then_apply om x1) = Ret (b2, x3) /\ same_but_written (then_apply om x1) x3 /\
        mb_buffer b2 = mb_buffer b1 /\ mb_capacity b2 = mb_capacity b1 /\ asked_for got (b ++ [o]) (mb_expected_size b2) /\
        (asks got (b ++ [o]) -> can_ask (h :: a ++ b ++ [o]))) \/
      (request_next_message next b1 (then_apply om x1) = Panic /\ asks got (b ++ [o]) /\ ~ can_ask (h :: a ++ b ++ [o]))).
    { unfold request_next_message. assert (FF : is_full b1 = false) by (unfold is_full; apply N.eqb_neq; congruence). rewrite FF, orb_false_r.
      unfold is_len_as_expected. rewrite EX1. destruct (N.eqb_spec (mb_expected_size buf) (lenN (mb_buffer b1) + 1)) as [EQ|NQ].
      - left. exists b1, (then_apply om x1). split; [reflexivity|]. split; [unfold same_but_written; repeat (split; [reflexivity|]); eexists _, _; symmetry; apply out_self|].
        split; [reflexivity|]. split; [reflexivity|]. rewrite EX1. split; [eapply af_waits; eauto; rewrite CNT; auto|].
        intros (b' & o' & k & l & E & AF' & GL & NK). apply app_inj_tail in E as [<- <-]. exfalso. apply NK.
        rewrite (got_fun _ _ _ GL G1), CNT, <- EQ.
        assert (AFF : forall q k1 k2, asked_for got q k1 -> asked_for got q k2 -> k1 = k2).
        { clear - got_fun. intros q. induction q as [|y q IHq] using rev_ind; intros k1 k2 X Y.
          - assert (Z : forall k, asked_for got [] k -> k = 0%N) by (intros k Q; inversion Q as [|c1 o1 k1' l1 Q1 Q2 Q3 Q4|c1 o1 k1' l1 Q1 Q2 Q3 Q4]; [reflexivity| |]; destruct c1; discriminate).
            rewrite (Z _ X), (Z _ Y). reflexivity.
          - assert (INV : forall k, asked_for got (q ++ [y]) k -> exists j l, asked_for got q j /\ got (q ++ [y]) l /\ ((countN l + 1 = j /\ k = j) \/ (countN l + 1 <> j /\ k = j + 1))%N).
            { intros k Q. inversion Q as [E|c1 o1 k1' l1 Q1 Q2 Q3 Q4|c1 o1 k1' l1 Q1 Q2 Q3 Q4]; [destruct q; discriminate| |]; apply app_inj_tail in Q4 as [E1 E2]; subst; eauto 8. }
            apply INV in X as (j1 & l1 & X1 & X2 & X3). apply INV in Y as (j2 & l2 & Y1 & Y2 & Y3).
            rewrite (IHq _ _ Y1 X1) in *. rewrite (got_fun _ _ _ Y2 X2) in *. destruct X3 as [[? ?]|[? ?]], Y3 as [[? ?]|[? ?]]; congruence. }
        exact (AFF _ _ _ AF AF').
      - assert (AS : asks got (b ++ [o])) by (exists b, o, (mb_expected_size buf), (map get_content_data (mb_buffer b1)); rewrite CNT; auto).
        destruct (next_told _ _ (lenN (mb_buffer b1)) T' ltac:(lia)) as [(CA & y & NX & SW)|(NCA & NX)]; rewrite NX; cbn [obind]; [left|right; auto].
        eexists _, y. split; [reflexivity|]. split; [exact SW|]. cbn [mb_buffer mb_capacity mb_expected_size]. split; [reflexivity|]. split; [reflexivity|].
        split; [eapply af_asks; eauto; rewrite CNT; auto|auto]. }
    destruct RQ as [(b2 & x3 & RQ & SW & EB & EC & AF2 & CA)|(RQ & AS & NCA)]; rewrite RQ; cbn [obind].
    2: { right. exists (h :: a ++ b ++ [o]). split; [auto|]. eapply en_nameless; eauto. }
    destruct (N.ltb_spec 10 (i1 + 1)) as [L10|L10].
    - exists (h :: a ++ b ++ [o]), FellSilent. split; [auto|]. split; [|reflexivity]. eapply en_silent; eauto. apply fell_idle.
      replace 11%N with (i1 + 1)%N; [exact ID1|]. unfold i1 in *. destruct om; lia.
    - apply (IH (b ++ [o])); auto.
      + eapply tracks_same; eauto.
      + intros b' SB. apply starts_snoc in SB as [SB| ->]; [apply GO; exact SB|]. split; [exact LK|]. split; [exact UC|]. split; [exact CA|].
        intros FS. apply fell_idle in FS. pose proof (idle_fun _ _ _ FS ID1). lia.
      + rewrite EB. exact G1.
      + congruence.
      + rewrite EB. lia.
      + unfold i1 in *. destruct om as [m|]; [|lia]. assert (o <> None) by (destruct M as (r & -> & _); discriminate). specialize (B2 H). lia.
  Qed.
End Run.
