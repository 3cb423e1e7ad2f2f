(** ProofAsk: proofs for PropAsk *)
From Coq Require Import Lia.
From Verif Require Import Base Utf8 ModelBencode ModelTracker ModelStream ModelPeer ModelActors ModelCache ModelMain
  ProofBase SpecBencode ProofBencode ProofBencode2 SpecTorrent ProofTorrent SpecMessages SpecTracker ProofTracker SpecLookup ProofLookup
  SpecText SpecGrammar ProofGrammar SpecAsk.

(** ** Peers listed in bytes *)
Lemma six_address : forall a b c d p1 p0, (a < 256 -> b < 256 -> c < 256 -> d < 256 -> p1 < 256 -> p0 < 256 -> exists ad,
  address_ok ad /\ compact [ad] = [a; b; c; d; p1; p0] /\ address_text ad = endpoint_text a b c d (256 * p1 + p0) /\ ad_port ad = 256 * p1 + p0)%N.
Proof.
  intros a b c d p1 p0 A B C D P1 P0. exists {| ad_1 := a; ad_2 := b; ad_3 := c; ad_4 := d; ad_port := (256 * p1 + p0)%N |}.
  unfold address_ok, address_text, compact. cbn [ad_1 ad_2 ad_3 ad_4 ad_port flat_map big_endian app].
  split; [lia|]. split; [|auto]. repeat f_equal; lia.
Qed.

Lemma endpoints_told : forall b, bytes_ok b -> exists es, endpoints_from_bytes b = Ret es /\ told b es.
Proof.
  intros b. unfold endpoints_from_bytes. remember (List.length b) as n. revert b Heqn. induction n as [n IH] using lt_wf_ind. intros b E O.
  destruct (le_lt_dec 6 n) as [L|L].
  - rewrite chunks_exact_step by lia. cbn [endpoints_of_chunks].
    assert (L6 : List.length (firstn 6 b) = 6%nat) by (rewrite firstn_length; lia).
    destruct (six _ L6) as (x1 & x2 & x3 & x4 & x5 & x6 & E6).
    assert (O6 : bytes_ok (firstn 6 b) /\ bytes_ok (skipn 6 b)).
    { rewrite <- (firstn_skipn 6 b) in O. unfold bytes_ok in *. apply Forall_app in O. exact O. }
    destruct O6 as [O6 O']. rewrite E6 in O6. unfold bytes_ok, byte_ok in O6. rewrite !Forall_cons_iff in O6. destruct O6 as (A & B & C & D & P1 & P0 & _).
    destruct (chunk_endpoint x1 x2 x3 x4 x5 x6 P1 P0) as (e & Ee & Et).
    destruct (six_address x1 x2 x3 x4 x5 x6 A B C D P1 P0) as (ad & OK & Ec & ET & EP).
    destruct (IH (n - 6)%nat ltac:(lia) (skipn 6 b)) as (es & Es & ps & x & Eb & X & F & F2); [rewrite skipn_length; lia|auto|].
    rewrite E6, Ee. cbn [obind]. rewrite Es. cbn [obind]. eexists. split; [reflexivity|].
    exists (ad :: ps), x. split; [|split; [auto|split; [constructor; auto|constructor; [|auto]]]].
    + change (ad :: ps) with ([ad] ++ ps). rewrite compact_app, Ec, <- E6, <- app_assoc, <- Eb. symmetry. apply firstn_skipn.
    + split; [|rewrite Et, ET; auto].
      cbn [endpoint_of_chunk index nth_error obind] in Ee. injection Ee as <-. cbn [pe_port]. rewrite EP. apply port_value; auto.
  - rewrite chunks_exact_short by lia. exists []. split; [reflexivity|]. exists [], b. split; [reflexivity|]. split; [lia|]. auto.
Qed.

Lemma endpoint_same : forall e e', endpoint e = endpoint e' -> pe_port e = pe_port e' -> e = e'.
Proof.
  intros [i p] [i' p']. unfold endpoint. cbn [pe_ip pe_port]. intros E P. subst p'. apply app_inv_tail in E. subst. auto.
Qed.
Lemma compact_inj : forall ps ps' x x', Forall address_ok ps -> Forall address_ok ps' -> (List.length x < 6)%nat -> (List.length x' < 6)%nat ->
  compact ps ++ x = compact ps' ++ x' -> ps = ps'.
Proof.
  induction ps as [|a ps IH]; intros [|a' ps'] x x' F F' X X' E.
  - auto.
  - exfalso. apply (f_equal (@List.length N)) in E. rewrite !app_length, !compact_length in E. cbn [List.length] in E. lia.
  - exfalso. apply (f_equal (@List.length N)) in E. rewrite !app_length, !compact_length in E. cbn [List.length] in E. lia.
  - inversion F as [|? ? OK FF]; inversion F' as [|? ? OK' FF']; subst. cbn [compact flat_map big_endian app] in E.
    injection E as E1 E2 E3 E4 E5 E6 E7. fold (compact ps) in E7. fold (compact ps') in E7. rewrite (IH _ _ _ FF FF' X X' E7). f_equal.
    destruct a as [x1 x2 x3 x4 x5], a' as [y1 y2 y3 y4 y5], OK as (_ & _ & _ & _ & P), OK' as (_ & _ & _ & _ & P'). cbn [ad_1 ad_2 ad_3 ad_4 ad_port] in *. f_equal; auto. lia.
Qed.
Lemma told_same : forall b es es', told b es -> told b es' -> es = es'.
Proof.
  intros b es es' (ps & x & E & X & F & H) (ps' & x' & E' & X' & F' & H').
  rewrite E in E'. assert (ps = ps') by (eapply (compact_inj ps ps' x x'); eauto). subst ps'. clear -H H'. revert es' H'.
  induction H as [|e a es ps (P & T) H IH]; intros es' H'; inversion H' as [|e' a' es2 ps2 (P' & T') H2]; subst; auto.
  f_equal; [|auto]. apply endpoint_same; congruence.
Qed.

(** ** HTTP *)
Lemma counted_incl : forall s str r, counted s str r -> incl str s /\ incl r s.
Proof.
  intros s str r C. destruct C as [ds b str r N D]. split; intros y I; rewrite !in_app_iff; cbn [In]; rewrite in_app_iff; auto.
Qed.
Lemma strings_incl :
  (forall s v r, value s v r -> incl r s /\ forall str, v = MString str -> incl str s) /\
  (forall s l r, items s l r -> incl r s) /\
  (forall s es r, entries s es r -> incl r s /\ forall k str, In (k, MString str) es -> incl str s).
Proof.
  apply grammar_mut.
  - split; [apply incl_refl|discriminate].
  - intros b t _. split; [apply incl_refl|discriminate].
  - intros ds n b r _ _. split; [|discriminate]. intros y I. right. rewrite in_app_iff. cbn [In]. auto.
  - intros s str r _ C. apply counted_incl in C as [C1 C2]. split; [auto|]. intros str' E. injection E as <-. auto.
  - intros s l r _ I. split; [apply incl_tl; auto|discriminate].
  - intros s es r _ (I & _). split; [apply incl_tl; auto|discriminate].
  - intros r. apply incl_tl, incl_refl.
  - intros b t v s l r _ _ (I & _) _ I2. eapply incl_tran; eauto.
  - intros r. split; [apply incl_tl, incl_refl|]. intros k str [].
  - intros b t key s1 v s2 es r _ C _ _ (I1 & I2) _ (I3 & I4). apply counted_incl in C as [_ C]. split.
    + eapply incl_tran; [exact I3|]. eapply incl_tran; [exact I1|exact C].
    + intros k str [E|I].
      * injection E as _ E. eapply incl_tran; [apply I2; exact E|exact C].
      * eapply incl_tran; [eapply I4; exact I|]. eapply incl_tran; [exact I1|exact C].
Qed.
Lemma last_in : forall V (es : list (bytes * V)) k v, last_binding es k = Some v -> In (k, v) es.
Proof.
  intros V es k v. induction es as [|[k' v'] es IH] using rev_ind; [discriminate|]. rewrite last_snoc, in_app_iff. cbn [In].
  destruct (list_eq_dec N.eq_dec k' k) as [->|E]; intros H; [|auto]. injection H as <-. auto.
Qed.
Lemma named_ok : forall body b, bytes_ok body -> names_peers body b -> bytes_ok b.
Proof.
  intros body b O (es & (s & r & -> & E) & L). apply last_in in L. apply (proj2 (proj2 strings_incl)) in E as (_ & E). specialize (E _ _ L).
  unfold bytes_ok in *. rewrite Forall_forall in *. intros y I. apply O. right. auto.
Qed.

(** What [tcp_call] makes of a body. *)
Lemma value_cases : forall body, (exists v r, value body v r) \/ (exists f, value_fails body f) \/ value_hangs body.
Proof. intros body. destruct (all_total (List.length body)) as (T & _). apply T. lia. Qed.

Lemma named_get : forall body v r b, value body v r -> (get_bytes_from_dict v (s2b "peers") = Ok b <-> names_peers body b).
Proof.
  intros body v r b V. split.
  - intros G. destruct v as [| | |d|]; try discriminate G. inversion V as [| | | | |s es r' E]; subst.
    exists es. split; [exists s, r; auto|].
    destruct (get_value_from_dict (MDictionary (gathered es)) (s2b "peers")) as [w|] eqn:W.
    + apply c66_last in W as W'. unfold get_bytes_from_dict in G. unfold get_value_from_dict in W. cbn [get_dict_content rbind] in G, W.
      destruct (hm_get (gathered es) (s2b "peers")); [|discriminate W]. injection W as ->. destruct w; try discriminate G. injection G as ->. auto.
    + unfold get_bytes_from_dict in G. unfold get_value_from_dict in W. cbn [get_dict_content rbind] in G, W.
      destruct (hm_get (gathered es) (s2b "peers")); [discriminate W|discriminate G].
  - intros (es & (s & r' & -> & E) & L). assert (V' := value_dict _ _ _ E).
    destruct (c66_unambiguous _ _ _ _ _ V V') as (-> & _). apply c66_last in L. unfold get_bytes_from_dict. unfold get_value_from_dict in L.
    cbn [get_dict_content rbind] in *. destruct (hm_get (gathered es) (s2b "peers")); [|discriminate L]. injection L as ->. reflexivity.
Qed.

Lemma c69_http : forall e u h, u_scheme u = s2b "http" -> bytes_ok h -> exists q, http_query (u_text u) h (le_pid e) q /\
  match le_get e q with
  | HttpFail => lookup e u h = Ret (Err (TrTcp (TcpConnection q)))
  | HttpUnreadable => lookup e u h = Ret (Err (TrTcp TcpBufferReading))
  | HttpBody body => bytes_ok body ->
    (forall es, lookup e u h = Ret (Ok es) <-> exists b, names_peers body b /\ told b es) /\
    ((exists x, lookup e u h = Ret (Err (TrTcp (TcpMetainfo x)))) <-> (exists v r, value body v r) /\ forall b, ~ names_peers body b) /\
    ((exists x, lookup e u h = Ret (Err (TrTcp (TcpDecoder x)))) <-> exists f, value_fails body f /\ f <> Cut) /\
    (lookup e u h = Panic <-> value_fails body Cut) /\
    (lookup e u h = OutOfFuel <-> value_hangs body)
  end.
Proof.
  intros e u h S O. exists (tcp_request_url (u_text u) h (le_pid e)). split; [apply query_ok; auto|].
  rewrite http_scheme by auto. unfold tcp_call. destruct (le_get e (tcp_request_url (u_text u) h (le_pid e))) as [| |body]; [reflexivity|reflexivity|].
  intros OB. destruct (value_cases body) as [(v & r & V)|[(f & F)|H]].
  - destruct (value_decoded _ _ _ V) as (x & _ & D). rewrite D. cbn [obind].
    assert (NF : forall f, ~ value_fails body f).
    { intros f F. apply failed_decoded in F. rewrite D in F. destruct f; discriminate F. }
    assert (NH : ~ value_hangs body) by (intros H; apply hang_decoded in H; rewrite D in H; discriminate H).
    destruct (get_bytes_from_dict v (s2b "peers")) as [b|er] eqn:G; cbn [obind].
    + apply (named_get _ _ _ b V) in G. destruct (endpoints_told b (named_ok _ _ OB G)) as (es & Ee & T). rewrite Ee. cbn [obind].
      split; [|split; [|split; [|split]]].
      * intros es'. split.
        -- intros E. injection E as <-. eauto.
        -- intros (b' & N & T'). apply (named_get _ _ _ _ V) in G. apply (named_get _ _ _ _ V) in N. rewrite N in G. injection G as ->.
           rewrite (told_same _ _ _ T T'). auto.
      * split; [intros (y & E); discriminate E|]. intros (_ & N). now elim (N b).
      * split; [intros (y & E); discriminate E|]. intros (f & F & _). now elim (NF f).
      * split; [intros E; discriminate E|]. intros F. now elim (NF Cut).
      * split; [intros E; discriminate E|]. intros H. now elim NH.
    + assert (NN : forall b, ~ names_peers body b).
      { intros b N. apply (named_get _ _ _ _ V) in N. rewrite N in G. discriminate G. }
      split; [|split; [|split; [|split]]].
      * intros es'. split; [intros E; discriminate E|]. intros (b' & N & _). now elim (NN b').
      * split; [eauto|]. intros _. eauto.
      * split; [intros (y & E); discriminate E|]. intros (f & F & _). now elim (NF f).
      * split; [intros E; discriminate E|]. intros F. now elim (NF Cut).
      * split; [intros E; discriminate E|]. intros H. now elim NH.
  - assert (D := failed_decoded _ _ F). rewrite D.
    assert (NV : forall v r, ~ value body v r).
    { intros v r V. destruct (value_decoded _ _ _ V) as (x & _ & E). rewrite E in D. destruct f; discriminate D. }
    assert (NN : forall b, ~ names_peers body b).
    { intros b (es & (s & r & -> & E) & _). eapply NV, value_dict; eauto. }
    assert (NH : ~ value_hangs body) by (intros H; apply hang_decoded in H; rewrite D in H; destruct f; discriminate H).
    assert (U : forall f', value_fails body f' -> (f = Cut <-> f' = Cut)).
    { intros f' F'. apply failed_decoded in F'. rewrite D in F'. destruct f, f'; split; intros E; try discriminate; auto. }
    split; [|split; [|split; [|split]]].
    + intros es'. split; [destruct f; cbn [result_of obind]; intros E; discriminate E|]. intros (b & N & _). now elim (NN b).
    + split; [destruct f; cbn [result_of obind]; intros (y & E); discriminate E|]. intros ((v & r & V) & _). now elim (NV v r).
    + split; [destruct f; cbn [result_of obind]; intros (y & E); [discriminate E| |]; eexists; (split; [eassumption|discriminate])|].
      intros (f' & F' & N). destruct f; cbn [result_of obind]; [|eauto..]. elim N. apply (U f' F'). auto.
    + split; [destruct f; cbn [result_of obind]; intros E; [auto|discriminate E..]|]. intros F'.
      assert (f = Cut) by (apply (U Cut F'); auto). subst f. reflexivity.
    + split; [destruct f; cbn [result_of obind]; intros E; discriminate E|]. intros H. now elim NH.
  - assert (D := hang_decoded _ H). rewrite D. cbn [obind].
    assert (NV : forall v r, ~ value body v r).
    { intros v r V. destruct (value_decoded _ _ _ V) as (x & _ & E). rewrite E in D. discriminate D. }
    assert (NN : forall b, ~ names_peers body b).
    { intros b (es & (s & r & -> & E) & _). eapply NV, value_dict; eauto. }
    assert (NF : forall f, ~ value_fails body f).
    { intros f F. apply failed_decoded in F. rewrite D in F. destruct f; discriminate F. }
    split; [|split; [|split; [|split]]].
    + intros es'. split; [intros E; discriminate E|]. intros (b & N & _). now elim (NN b).
    + split; [intros (y & E); discriminate E|]. intros ((v & r & V) & _). now elim (NV v r).
    + split; [intros (y & E); discriminate E|]. intros (f & F & _). now elim (NF f).
    + split; [intros E; discriminate E|]. intros F. now elim (NF Cut).
    + split; auto.
Qed.

(** ** UDP *)
Lemma send_nth : forall s m, exists s', udp_send s m = (nth 0 (us_sends s) true, s') /\ us_recvs s' = us_recvs s /\
  us_sends s' = skipn 1 (us_sends s) /\ us_sent s' = us_sent s ++ (if nth 0 (us_sends s) true then [m] else []).
Proof.
  intros s m. unfold udp_send. destruct (us_sends s) as [|[|] r] eqn:E; eexists; cbn [nth skipn us_recvs us_sends us_sent];
    (split; [reflexivity|]); repeat split; auto. rewrite app_nil_r. auto.
Qed.

Lemma nth_skip : forall (l : list bool) j k, nth k (skipn j l) true = nth (j + k) l true.
Proof. induction l as [|a l IH]; intros [|j] k; cbn [skipn nth Nat.add]; auto. destruct k; auto. Qed.
Lemma skip_skip : forall (l : list bool) j k, skipn k (skipn j l) = skipn (j + k) l.
Proof. induction l as [|a l IH]; intros [|j] k; cbn [skipn Nat.add]; auto. destruct k; auto. Qed.

Lemma requested_S : forall l n, requested l (S n) = ((if nth 0 l true then 1 else 0) + requested (skipn 1 l) n)%nat.
Proof.
  intros l n. unfold requested. destruct l as [|b l]; cbn [repeat app firstn filter nth skipn].
  - cbn [List.length]. lia.
  - replace (firstn n (l ++ true :: repeat true n)) with (firstn n (l ++ repeat true n)).
    + destruct b; cbn [List.length]; lia.
    + rewrite repeat_cons, app_assoc. rewrite (firstn_app n (l ++ repeat true n) [true]).
      rewrite app_length, repeat_length. replace (n - (List.length l + n))%nat with 0%nat by lia. cbn [firstn]. rewrite app_nil_r. auto.
Qed.

Lemma connection_read : forall pkt, skipn 8 (fill 16 (firstn 16 pkt)) = connection_of pkt.
Proof.
  intros pkt. unfold fill, connection_of. rewrite firstn_length. destruct (le_lt_dec 16 (List.length pkt)) as [L|L].
  - rewrite Nat.min_l by lia. replace (repeat 0%N (16 - 16)) with (@nil N) by reflexivity.
    rewrite app_nil_r, skipn_firstn_comm, skipn_app. cbn [Nat.sub]. rewrite firstn_app, skipn_length.
    replace (8 - (List.length pkt - 8))%nat with 0%nat by lia. rewrite firstn_O. now rewrite app_nil_r.
  - rewrite Nat.min_r by lia. rewrite firstn_all2 by lia.
    transitivity (skipn 8 (firstn 16 (pkt ++ repeat 0%N 16))); [|now rewrite skipn_firstn_comm].
    f_equal. rewrite firstn_app, firstn_all2 by lia. f_equal.
    assert (RF : forall a b, (a <= b)%nat -> firstn a (repeat 0%N b) = repeat 0%N a).
    { induction a; intros [|b] Hab; cbn; try lia; auto. f_equal. apply IHa. lia. }
    symmetry. apply RF. lia.
Qed.

Lemma rounds : forall tries m s,
  (forall k, (k < tries)%nat -> us_recvs s = repeat None k -> connect_rounds tries m s = OutOfFuel) /\
  (forall rest, us_recvs s = repeat None tries ++ rest -> exists s', connect_rounds tries m s = Ret (Err UdpNoConnection, s') /\
     us_sent s' = us_sent s ++ repeat m (requested (us_sends s) tries)) /\
  (forall k pkt rest, (k < tries)%nat -> us_recvs s = repeat None k ++ Some pkt :: rest ->
     exists s', connect_rounds tries m s = Ret (Ok (connection_of pkt), s') /\ us_recvs s' = rest /\ us_sends s' = skipn (S k) (us_sends s) /\
       us_sent s' = us_sent s ++ repeat m (requested (us_sends s) (S k))).
Proof.
  induction tries as [|t IH]; intros m s.
  - split; [intros k L; lia|]. split; [|intros k pkt rest L; lia]. intros rest E. cbn [connect_rounds]. eexists. split; [reflexivity|].
    change (requested (us_sends s) 0) with 0%nat. cbn [repeat]. rewrite app_nil_r. auto.
  - cbn [connect_rounds]. destruct (send_nth s m) as (s1 & E1 & R1 & S1 & T1). rewrite E1. unfold udp_recv. rewrite R1.
    assert (REP : forall n, (if nth 0 (us_sends s) true then [m] else []) ++ repeat m n = repeat m ((if nth 0 (us_sends s) true then 1 else 0) + n)).
    { intros n. destruct (nth 0 (us_sends s) true); reflexivity. }
    destruct (us_recvs s) as [|[b|] r] eqn:R; cbn [obind].
    + split; [auto|]. split; [intros rest E; discriminate E|]. intros [|k] pkt rest _ E; discriminate E.
    + split; [intros [|k] _ E; discriminate E|]. split; [intros rest E; discriminate E|]. intros [|k] pkt rest _ E; [|discriminate E].
      cbn [repeat app] in E. injection E as -> ->. eexists. split; [|split; [|split]].
      * rewrite connection_read. reflexivity.
      * auto.
      * cbn [us_sends]. auto.
      * cbn [us_sent]. rewrite T1, requested_S. change (requested (skipn 1 (us_sends s)) 0) with 0%nat. rewrite <- REP. cbn [repeat]. rewrite app_nil_r. auto.
    + set (s2 := {| us_sends := us_sends s1; us_recvs := r; us_sent := us_sent s1 |}). destruct (IH m s2) as (A & B & C). split; [|split].
      * intros [|k] L E; [discriminate E|]. injection E as E. apply (A k); [lia|auto].
      * intros rest E. injection E as E. destruct (B rest E) as (s' & Es & Et). exists s'. split; [auto|]. rewrite Et. cbn [us_sent us_sends s2].
        rewrite T1, S1, requested_S, <- app_assoc, REP. auto.
      * intros [|k] pkt rest L E; [discriminate E|]. injection E as E. destruct (C k pkt rest ltac:(lia) E) as (s' & Es & Er & Ed & Et).
        exists s'. split; [auto|]. split; [auto|]. cbn [us_sends us_sent s2] in Ed, Et. rewrite S1 in Ed, Et. split; [rewrite Ed, skip_skip; auto|].
        rewrite Et, T1, (requested_S _ (S k)), <- app_assoc, REP. auto.
Qed.

Definition verdict_result (v : verdict) (r : outcome (result bytes udp_error)) : Prop :=
  match v with
  | Waits => r = OutOfFuel
  | Refused => r = Ret (Err UdpNoConnection)
  | CannotSend => r = Ret (Err UdpSendError)
  | CannotReceive => r = Ret (Err UdpReceiveError)
  | TooShort => r = Ret (Err UdpWrongResponseSize)
  | Answer b => r = Ret (Ok b)
  end.
Definition first_of (r : outcome (result bytes udp_error * udp_socket)) : outcome (result bytes udp_error) := '(a, _) <- r ;; Ret a.

Lemma received_slice : forall resp, (26 < List.length resp)%nat ->
  slice (fill 4000 (firstn 4000 resp)) 20 (List.length (firstn 4000 resp)) = Ret (skipn 20 (firstn 4000 resp)).
Proof.
  intros resp L. assert (L4 : (26 < List.length (firstn 4000 resp) <= 4000)%nat) by (rewrite firstn_length; lia).
  unfold slice, fill. rewrite app_length, repeat_length.
  match goal with |- (if ?c then _ else _) = _ => destruct c eqn:Z end; [|lia].
  f_equal. rewrite skipn_app, firstn_app, skipn_length.
  replace (List.length (firstn 4000 resp) - 20 - (List.length (firstn 4000 resp) - 20))%nat with 0%nat by lia. cbn [firstn]. rewrite app_nil_r.
  apply firstn_all2. rewrite skipn_length. lia.
Qed.

Lemma talk_call : forall s h pid u host port v, u_host u = Some host -> u_port u = Some port -> talk (us_sends s) (us_recvs s) v ->
  verdict_result v (first_of (udp_call true true s h pid u)).
Proof.
  intros s h pid u host port v H P T. unfold udp_call. rewrite H, P. cbn [negb]. unfold connect_to_tracker.
  destruct (rounds 4 (make_connection_message udp_transaction_id) s) as (A & B & C).
  destruct T as [k L E|rest E|k pkt rest L E N|k pkt L E N|k pkt rest L E N|k pkt resp rest L E N SZ|k pkt resp rest L E N SZ]; cbn [verdict_result].
  - rewrite (A k L E). reflexivity.
  - destruct (B rest E) as (s' & -> & _). reflexivity.
  - destruct (C k pkt rest L E) as (s' & -> & R & S & _). cbn [obind].
    destruct (send_nth s' (make_announce_message udp_transaction_id (connection_of pkt) pid h)) as (s2 & -> & R2 & _).
    rewrite S, nth_skip, Nat.add_0_r, N. reflexivity.
  - destruct (C k pkt _ L E) as (s' & -> & R & S & _). cbn [obind].
    destruct (send_nth s' (make_announce_message udp_transaction_id (connection_of pkt) pid h)) as (s2 & -> & R2 & _).
    rewrite S, nth_skip, Nat.add_0_r, N. cbn [negb]. unfold udp_recv. rewrite R2, R. reflexivity.
  - destruct (C k pkt _ L E) as (s' & -> & R & S & _). cbn [obind].
    destruct (send_nth s' (make_announce_message udp_transaction_id (connection_of pkt) pid h)) as (s2 & -> & R2 & _).
    rewrite S, nth_skip, Nat.add_0_r, N. cbn [negb]. unfold udp_recv. rewrite R2, R. reflexivity.
  - destruct (C k pkt _ L E) as (s' & -> & R & S & _). cbn [obind].
    destruct (send_nth s' (make_announce_message udp_transaction_id (connection_of pkt) pid h)) as (s2 & -> & R2 & _).
    rewrite S, nth_skip, Nat.add_0_r, N. cbn [negb]. unfold udp_recv. rewrite R2, R. cbn [obind].
    rewrite (proj2 (Nat.ltb_ge 26 _)) by (rewrite firstn_length; lia). reflexivity.
  - destruct (C k pkt _ L E) as (s' & -> & R & S & _). cbn [obind].
    destruct (send_nth s' (make_announce_message udp_transaction_id (connection_of pkt) pid h)) as (s2 & -> & R2 & _).
    rewrite S, nth_skip, Nat.add_0_r, N. cbn [negb]. unfold udp_recv. rewrite R2, R. cbn [obind].
    rewrite (proj2 (Nat.ltb_lt 26 _)) by (rewrite firstn_length; lia). rewrite received_slice by auto. reflexivity.
Qed.

Lemma prefix_cases : forall n (l : list (option bytes)), (exists k, (k < n)%nat /\ l = repeat None k) \/ (exists rest, l = repeat None n ++ rest) \/
  (exists k pkt rest, (k < n)%nat /\ l = repeat None k ++ Some pkt :: rest).
Proof.
  induction n as [|n IH]; intros l; [right; left; exists l; auto|]. destruct l as [|[b|] l].
  - left. exists 0%nat. split; [lia|auto].
  - right. right. exists 0%nat, b, l. split; [lia|auto].
  - destruct (IH l) as [(k & L & ->)|[(rest & ->)|(k & pkt & rest & L & ->)]].
    + left. exists (S k). split; [lia|auto].
    + right. left. exists rest. auto.
    + right. right. exists (S k), pkt, rest. split; [lia|auto].
Qed.
Lemma talk_total : forall sends recvs, exists v, talk sends recvs v.
Proof.
  intros sends recvs. destruct (prefix_cases 4 recvs) as [(k & L & E)|[(rest & E)|(k & pkt & rest & L & E)]].
  - eexists. eapply talk_silence; eauto.
  - eexists. eapply talk_refused; eauto.
  - destruct (nth (S k) sends true) eqn:N; [|eexists; eapply talk_unsent; eauto].
    destruct rest as [|[resp|] rest].
    + eexists. eapply talk_unanswered; eauto.
    + destruct (le_lt_dec (List.length resp) 26) as [S|S]; eexists; [eapply talk_short|eapply talk_answer]; eauto.
    + eexists. eapply talk_broken; eauto.
Qed.
Lemma talk_unique : forall sends recvs v v', talk sends recvs v -> talk sends recvs v' -> v = v'.
Proof.
  intros sends recvs v v' T T'. set (s := {| us_sends := sends; us_recvs := recvs; us_sent := [] |}).
  set (u := {| u_scheme := []; u_host := Some []; u_port := Some 0%N; u_text := [] |}).
  assert (A := talk_call s [] [] u [] 0%N v eq_refl eq_refl T). assert (B := talk_call s [] [] u [] 0%N v' eq_refl eq_refl T').
  clearbody u. destruct v, v'; cbn [verdict_result] in A, B; congruence.
Qed.

Lemma c69_udp : forall e u h host port, u_scheme u = s2b "udp" -> u_host u = Some host -> u_port u = Some port ->
  le_bound e = true -> le_connected e = true -> (forall b, In (Some b) (us_recvs (le_socket e)) -> bytes_ok b) ->
  exists v, talk (us_sends (le_socket e)) (us_recvs (le_socket e)) v /\
  match v with
  | Waits => lookup e u h = OutOfFuel
  | Refused => lookup e u h = Ret (Err (TrUdp UdpNoConnection))
  | CannotSend => lookup e u h = Ret (Err (TrUdp UdpSendError))
  | CannotReceive => lookup e u h = Ret (Err (TrUdp UdpReceiveError))
  | TooShort => lookup e u h = Ret (Err (TrUdp UdpWrongResponseSize))
  | Answer b => forall es, lookup e u h = Ret (Ok es) <-> told b es
  end.
Proof.
  intros e u h host port S EH EP B C O. destruct (talk_total (us_sends (le_socket e)) (us_recvs (le_socket e))) as (v & T). exists v. split; [auto|].
  assert (R := talk_call (le_socket e) h (le_pid e) u host port v EH EP T). rewrite udp_scheme, B, C by auto.
  unfold first_of in R. destruct (udp_call true true (le_socket e) h (le_pid e) u) as [[r s']| |]; cbn [obind] in *.
  - destruct v; cbn [verdict_result] in R; try discriminate R; injection R as ->; auto.
    assert (OB : bytes_ok b).
    { inversion T as [| | | | | |k pkt resp rest L E N SZ]; subst. assert (OR : bytes_ok resp).
      { apply O. rewrite E, in_app_iff. cbn [In]. auto. }
      unfold bytes_ok in *. rewrite Forall_forall in *. intros y I. apply OR. rewrite <- (firstn_skipn 4000 resp), in_app_iff. left.
      rewrite <- (firstn_skipn 20 (firstn 4000 resp)), in_app_iff. auto. }
    destruct (endpoints_told b OB) as (es & Ee & Te). rewrite Ee. cbn [obind]. intros es'. split.
    + intros E. injection E as <-. auto.
    + intros T'. rewrite (told_same _ _ _ Te T'). auto.
  - destruct v; cbn [verdict_result] in R; discriminate R.
  - destruct v; cbn [verdict_result] in R; try discriminate R; auto.
Qed.

Lemma c69_sent : forall s h pid u host port r s', u_host u = Some host -> u_port u = Some port ->
  udp_call true true s h pid u = Ret (r, s') ->
  exists n connects announces, (n <= 4)%nat /\ us_sent s' = us_sent s ++ repeat connects (requested (us_sends s) n) ++ announces /\
    bep15_connect udp_transaction_id connects /\
    ((r = Err UdpNoConnection /\ n = 4%nat /\ announces = []) \/
     exists k pkt rest, n = S k /\ us_recvs s = repeat None k ++ Some pkt :: rest /\
       ((r = Err UdpSendError /\ announces = []) \/
        (r <> Err UdpSendError /\ r <> Err UdpNoConnection /\ exists m, announces = [m] /\ (List.length pid = 20%nat -> List.length h = 20%nat ->
           bep15_announce (connection_of pkt) udp_transaction_id h pid m)))).
Proof.
  intros s h pid u host port r s' EH EP. unfold udp_call. rewrite EH, EP. cbn [negb]. unfold connect_to_tracker.
  destruct (rounds 4 (make_connection_message udp_transaction_id) s) as (A & B & C).
  assert (TL : List.length udp_transaction_id = 4%nat) by reflexivity.
  destruct (prefix_cases 4 (us_recvs s)) as [(k & L & E)|[(rest & E)|(k & pkt & rest & L & E)]].
  - rewrite (A k L E). intros H. discriminate H.
  - destruct (B rest E) as (s1 & -> & T). cbn [obind]. intros H. injection H as <- <-.
    exists 4%nat, (make_connection_message udp_transaction_id), []. rewrite app_nil_r. split; [lia|]. split; [auto|]. split; [now apply c21_connect|auto].
  - destruct (C k pkt rest L E) as (s1 & -> & R & S & T). cbn [obind].
    set (m := make_announce_message udp_transaction_id (connection_of pkt) pid h). destruct (send_nth s1 m) as (s2 & -> & R2 & S2 & T2).
    rewrite S, nth_skip, Nat.add_0_r in *.
    assert (CL : List.length (connection_of pkt) = 8%nat).
    { unfold connection_of. rewrite firstn_length, skipn_length, app_length, repeat_length. lia. }
    destruct (nth (Datatypes.S k) (us_sends s) true); cbn [negb].
    + assert (X : forall r' s3, us_sent s3 = us_sent s2 -> r' <> Err UdpSendError -> r' <> Err UdpNoConnection ->
        Ret (r', s3) = Ret (r, s') -> exists n connects announces, (n <= 4)%nat /\ us_sent s' = us_sent s ++ repeat connects (requested (us_sends s) n) ++ announces /\
    bep15_connect udp_transaction_id connects /\
    ((r = Err UdpNoConnection /\ n = 4%nat /\ announces = []) \/
     exists k pkt rest, n = Datatypes.S k /\ us_recvs s = repeat None k ++ Some pkt :: rest /\
       ((r = Err UdpSendError /\ announces = []) \/
        (r <> Err UdpSendError /\ r <> Err UdpNoConnection /\ exists m, announces = [m] /\ (List.length pid = 20%nat -> List.length h = 20%nat ->
           bep15_announce (connection_of pkt) udp_transaction_id h pid m))))).
      { intros r' s3 Q N1 N2 H. injection H as -> ->.
        exists (Datatypes.S k), (make_connection_message udp_transaction_id), [m]. split; [lia|]. split; [rewrite Q, T2, T, <- app_assoc; auto|].
        split; [now apply c21_connect|]. right. exists k, pkt, rest. split; [auto|]. split; [auto|]. right. split; [auto|]. split; [auto|].
        exists m. split; [auto|]. intros LP LH. now apply c21_announce. }
      unfold udp_recv. destruct (us_recvs s2) as [|[b|] rr]; cbn [obind]; [intros H; discriminate H| |].
      * destruct (26 <? List.length (firstn 4000 b))%nat eqn:Z.
        -- apply Nat.ltb_lt in Z. rewrite received_slice by (rewrite firstn_length in Z; lia). cbn [obind]. apply X; [auto|discriminate..].
        -- apply X; [auto|discriminate..].
      * apply X; [auto|discriminate..].
    + intros H. injection H as <- <-. exists (Datatypes.S k), (make_connection_message udp_transaction_id), []. rewrite T2, T, !app_nil_r.
      split; [lia|]. split; [auto|]. split; [now apply c21_connect|]. right. exists k, pkt, rest. auto.
Qed.

Lemma c69_before : forall e u h, u_scheme u = s2b "udp" -> le_bound e = false \/ u_host u = None \/ u_port u = None \/ le_connected e = false ->
  lookup e u h = if le_bound e then match u_host u, u_port u with
    | None, _ => Ret (Err (TrUdp UdpHostnameMissing))
    | _, None => Ret (Err (TrUdp UdpPostMissing))
    | _, _ => Panic
    end else Panic.
Proof.
  intros e u h S H. rewrite udp_scheme by auto. unfold udp_call. destruct (le_bound e); cbn [negb]; [|reflexivity].
  destruct (u_host u) as [host|]; [|reflexivity]. destruct (u_port u) as [port|]; [|reflexivity].
  destruct (le_connected e); [|reflexivity]. exfalso. destruct H as [H|[H|[H|H]]]; discriminate H.
Qed.

Lemma c69_plain : exists d peer, decodable is_text (BDict d) /\ Forall (fun kv => distinct_keys (snd kv)) d /\
  In (s2b "peers", BList [BDict peer]) d /\ In (s2b "ip", BStr (s2b "10.0.0.1")) peer /\ In (s2b "port", BInt 6881) peer /\
  forall e u h, u_scheme u = s2b "http" -> (forall q, le_get e q = HttpBody (benc (BDict d))) ->
  lookup e u h = Ret (Err (TrTcp (TcpMetainfo (BadMetainfoMatch KString KList)))).
Proof.
  set (peer := [(s2b "ip", BStr (s2b "10.0.0.1")); (s2b "peer id", BStr (repeat 65%N 20)); (s2b "port", BInt 6881)]).
  exists [(s2b "interval", BInt 1800); (s2b "peers", BList [BDict peer])], peer.
  split; [|split; [|split; [|split; [|split]]]].
  - repeat (constructor; cbn [fst snd]); try (vm_compute; repeat split; congruence); try (exists []; vm_compute; reflexivity).
  - repeat (constructor; cbn [fst snd]); vm_compute; intuition congruence.
  - cbn [In]. auto.
  - cbn [In peer]. auto.
  - cbn [In peer]. auto.
  - intros e u h S G. rewrite http_scheme by auto. unfold tcp_call. rewrite G. vm_compute. reflexivity.
Qed.
