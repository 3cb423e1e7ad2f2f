(** ProofLookup: proofs for PropLookup *)
From Coq Require Import Lia.
From Verif Require Import Base Utf8 ModelBencode ModelTracker ModelStream ModelPeer ModelActors ModelCache ModelMain
  ProofBase SpecBencode ProofBencode ProofBencode2 SpecTorrent ProofTorrent SpecMessages SpecTracker ProofTracker SpecLookup.


Lemma chunks_compact : forall ps x, (List.length x < 6)%nat -> Forall address_ok ps ->
  exists es, endpoints_from_bytes (compact ps ++ x) = Ret es /\ map endpoint es = map address_text ps.
Proof.
  intros ps x X. induction ps as [|a ps IH]; intros F.
  - cbn [compact flat_map app map]. exists []. split; [|auto]. unfold endpoints_from_bytes.
    destruct x as [|x1 [|x2 [|x3 [|x4 [|x5 [|x6 x]]]]]]; cbn [List.length] in X; try lia; reflexivity.
  - inversion F as [|? ? OK F']; subst. destruct (IH F') as (es & E & M). destruct OK as (A1 & A2 & A3 & A4 & AP).
    assert (P1 : (ad_port a / 256 mod 256 < 256)%N) by (apply N.mod_lt; discriminate).
    assert (P0 : (ad_port a mod 256 < 256)%N) by (apply N.mod_lt; discriminate).
    assert (PV : (256 * (ad_port a / 256 mod 256) + ad_port a mod 256 = ad_port a)%N) by lia.
    unfold endpoints_from_bytes in *.
    assert (C : chunks_exact 6 (compact (a :: ps) ++ x)
      = [ad_1 a; ad_2 a; ad_3 a; ad_4 a; (ad_port a / 256 mod 256)%N; (ad_port a mod 256)%N] :: chunks_exact 6 (compact ps ++ x)).
    { rewrite chunks_exact_step; [reflexivity|lia|cbn [compact flat_map big_endian app]; cbn [List.length]; lia]. }
    rewrite C. cbn [endpoints_of_chunks].
    destruct (chunk_endpoint (ad_1 a) (ad_2 a) (ad_3 a) (ad_4 a) _ _ P1 P0) as (e & Ee & Et).
    rewrite Ee. cbn [obind]. rewrite E. cbn [obind]. eexists. split; [reflexivity|]. cbn [map]. rewrite M, Et, PV. auto.
Qed.

Lemma compact_length : forall ps, List.length (compact ps) = (6 * List.length ps)%nat.
Proof. induction ps as [|a ps IH]; [auto|]. cbn [compact flat_map]. rewrite app_length. fold (compact ps). rewrite IH. cbn [List.length app big_endian]. lia. Qed.

Lemma compact_app : forall a b, compact (a ++ b) = compact a ++ compact b.
Proof. intros. apply flat_map_app. Qed.

Lemma compact_firstn : forall ps n, (n < 6)%nat ->
  forall k, firstn (6 * k + n) (compact ps) = compact (firstn k ps) ++ (if (k <? List.length ps)%nat then firstn n (skipn (6 * k) (compact ps)) else []) .
Proof.
  intros ps n N k.
  destruct (Nat.ltb_spec k (List.length ps)) as [L|L].
  - assert (EP : compact ps = compact (firstn k ps) ++ compact (skipn k ps)) by (rewrite <- compact_app, firstn_skipn; auto). rewrite EP.
    assert (E : List.length (compact (firstn k ps)) = (6 * k)%nat) by (rewrite compact_length, firstn_length; lia).
    rewrite firstn_app, E. rewrite firstn_all2 by lia. f_equal. rewrite skipn_app, E, Nat.sub_diag. cbn [skipn].
    rewrite (skipn_all2 (compact (firstn k ps))) by lia. cbn [app]. f_equal. lia.
  - rewrite (firstn_all2 ps) by lia. rewrite firstn_all2 by (rewrite compact_length; lia). rewrite app_nil_r. auto.
Qed.

Lemma answer_endpoints : forall k n ps, (n < 6)%nat -> Forall address_ok ps ->
  exists es, endpoints_from_bytes (firstn (6 * k + n) (compact ps)) = Ret es /\ map endpoint es = map address_text (firstn k ps).
Proof.
  intros k n ps N F. rewrite compact_firstn by auto. apply chunks_compact.
  - destruct (k <? List.length ps)%nat; [|cbn; lia]. rewrite firstn_length. lia.
  - rewrite <- (firstn_skipn k ps) in F. apply Forall_app in F. tauto.
Qed.

Lemma query_ok : forall t h pid, bytes_ok h -> http_query t h pid (tcp_request_url t h pid).
Proof. intros t h pid O. destruct (c23 h O) as (A & B & _). exists (encode_binary h). auto. Qed.

Lemma http_scheme : forall e u h, u_scheme u = s2b "http" ->
  lookup e u h = (r <- tcp_call (le_get e) h (le_pid e) u ;;
    match r with Ok b => es <- endpoints_from_bytes b ;; Ret (Ok es) | Err x => Ret (Err (TrTcp x)) end).
Proof. intros e u h E. unfold lookup, get_peers_by_tracker. rewrite E. reflexivity. Qed.
Lemma udp_scheme : forall e u h, u_scheme u = s2b "udp" ->
  lookup e u h = ('(r, _) <- udp_call (le_bound e) (le_connected e) (le_socket e) h (le_pid e) u ;;
    match r with Ok b => es <- endpoints_from_bytes b ;; Ret (Ok es) | Err x => Ret (Err (TrUdp x)) end).
Proof. intros e u h E. unfold lookup, get_peers_by_tracker. rewrite E. reflexivity. Qed.

Lemma c59_http : forall e u h d suf ps x, u_scheme u = s2b "http" -> bytes_ok h ->
  decodable is_text (BDict d) -> Forall (fun kv => distinct_keys (snd kv)) d ->
  last_binding d (s2b "peers") = Some (BStr (compact ps ++ x)) -> (List.length x < 6)%nat -> Forall address_ok ps ->
  (forall q, http_query (u_text u) h (le_pid e) q -> le_get e q = HttpBody (benc (BDict d) ++ suf)) ->
  exists es, lookup e u h = Ret (Ok es) /\ map endpoint es = map address_text ps.
Proof.
  intros e u h d suf ps x S O D K B X F Q. rewrite http_scheme by auto. unfold tcp_call. rewrite Q by (apply query_ok; auto).
  destruct (c06 d suf D K) as (m & n & E & L). rewrite E. cbn [obind].
  destruct (L (s2b "peers")) as [_ L2]. destruct (L2 _ B) as (_ & _ & L3 & _). rewrite (proj2 (L3 _) eq_refl).
  cbn [obind]. destruct (chunks_compact ps x X F) as (es & Ee & M). rewrite Ee. cbn [obind]. eauto.
Qed.

Lemma c59_http_only : forall e u h es, u_scheme u = s2b "http" -> bytes_ok h -> lookup e u h = Ret (Ok es) ->
  exists q body m n b, http_query (u_text u) h (le_pid e) q /\ le_get e q = HttpBody body /\
    decode body = Ret (Ok (m, n)) /\ get_bytes_from_dict m (s2b "peers") = Ok b /\ endpoints_from_bytes b = Ret es.
Proof.
  intros e u h es S O H. rewrite http_scheme in H by auto. unfold tcp_call in H.
  destruct (le_get e (tcp_request_url (u_text u) h (le_pid e))) as [| |body] eqn:G; [discriminate|discriminate|].
  destruct (decode body) as [[[m n]|]| |] eqn:D; cbn [obind] in H; try discriminate.
  destruct (get_bytes_from_dict m (s2b "peers")) as [b|] eqn:B; cbn [obind] in H; [|discriminate].
  destruct (endpoints_from_bytes b) as [es'| |] eqn:E; cbn [obind] in H; try discriminate. injection H as <-.
  exists (tcp_request_url (u_text u) h (le_pid e)), body, m, n, b. split; [apply query_ok; auto|]. auto.
Qed.

Lemma c59_udp : forall e u h host port (pkt hdr : bytes) ps (rest : list (option bytes)), u_scheme u = s2b "udp" -> u_host u = Some host -> u_port u = Some port ->
  le_bound e = true -> le_connected e = true ->
  le_socket e = {| us_sends := []; us_recvs := Some pkt :: Some (hdr ++ compact ps : bytes) :: rest; us_sent := [] |} ->
  List.length hdr = 20%nat -> (2 <= List.length ps)%nat -> Forall address_ok ps ->
  exists es, lookup e u h = Ret (Ok es) /\ map endpoint es = map address_text (firstn 663 ps).
Proof.
  intros e u h host port pkt hdr ps rest S EH EP B C K LH L2 F. rewrite udp_scheme, B, C, K by auto.
  rewrite (c22_answers h (le_pid e) u pkt (hdr ++ compact ps) rest host port EH EP).
  rewrite app_length, LH, compact_length. rewrite (proj2 (Nat.ltb_lt 26 _)) by lia. cbn [obind].
  rewrite firstn_app, LH. change (4000 - 20)%nat with (6 * 663 + 2)%nat. rewrite firstn_all2 by lia.
  rewrite skipn_app, LH, skipn_all2 by lia. cbn [app]. change (20 - 20)%nat with 0%nat. cbn [skipn].
  destruct (answer_endpoints 663 2 ps ltac:(lia) F) as (es & E & M). rewrite E. cbn [obind]. eauto.
Qed.

Lemma c59_udp_none : forall e u h host port (pkt resp : bytes) (rest : list (option bytes)), u_scheme u = s2b "udp" -> u_host u = Some host -> u_port u = Some port ->
  le_bound e = true -> le_connected e = true ->
  le_socket e = {| us_sends := []; us_recvs := Some pkt :: Some resp :: rest; us_sent := [] |} ->
  (List.length resp <= 26)%nat ->
  lookup e u h = Ret (Err (TrUdp UdpWrongResponseSize)).
Proof.
  intros e u h host port pkt resp rest S EH EP B C K L. rewrite udp_scheme, B, C, K by auto.
  rewrite (c22_answers h (le_pid e) u pkt resp rest host port EH EP). rewrite (proj2 (Nat.ltb_ge 26 _)) by lia. reflexivity.
Qed.

Lemma c59_scheme : forall e u h, u_scheme u <> s2b "http" -> u_scheme u <> s2b "udp" ->
  lookup e u h = Ret (Err (TrProtocolNotSupported (u_scheme u))).
Proof.
  intros e u h A B. unfold lookup, get_peers_by_tracker.
  destruct (bytes_eqb (u_scheme u) (s2b "http")) eqn:E; [apply bytes_eqb_eq in E; contradiction|].
  destruct (bytes_eqb (u_scheme u) (s2b "udp")) eqn:E2; [apply bytes_eqb_eq in E2; contradiction|]. auto.
Qed.

Lemma endpoints_total : forall b, exists es, endpoints_from_bytes b = Ret es.
Proof.
  intros b. unfold endpoints_from_bytes. remember (List.length b) as n. revert b Heqn. induction n as [n IH] using lt_wf_ind. intros b E.
  destruct (le_lt_dec 6 n) as [L|L]; [|rewrite chunks_exact_short by lia; eexists; reflexivity].
  rewrite chunks_exact_step by lia. cbn [endpoints_of_chunks].
  assert (L6 : List.length (firstn 6 b) = 6%nat) by (rewrite firstn_length; lia).
  destruct (six _ L6) as (x1 & x2 & x3 & x4 & x5 & x6 & E6). rewrite E6. cbn [endpoint_of_chunk index nth_error obind].
  destruct (IH (n - 6)%nat ltac:(lia) (skipn 6 b)) as (es & Es); [rewrite skipn_length; lia|]. rewrite Es. eexists. reflexivity.
Qed.

Lemma connect_rounds_no_panic : forall n m s, connect_rounds n m s <> Panic.
Proof.
  induction n as [|n IH]; intros m s H; [discriminate|]. cbn [connect_rounds] in H.
  destruct (udp_send s m) as [ok s1]. unfold udp_recv in H. destruct (us_recvs s1) as [|[b|] r]; cbn [obind] in H; try discriminate.
  eapply IH; eauto.
Qed.

Lemma c59_panic : forall e u h, In u tracker_urls -> (lookup e u h = Panic <-> le_bound e = false \/ le_connected e = false).
Proof.
  intros e u h I. assert (S : u_scheme u = s2b "udp" /\ (exists host, u_host u = Some host) /\ exists port, u_port u = Some port).
  { unfold tracker_urls in I. cbn [In] in I. repeat (destruct I as [<-|I]; [cbn; eauto|]). destruct I. }
  destruct S as (S & (host & EH) & (port & EP)). rewrite udp_scheme by auto. unfold udp_call. rewrite EH, EP.
  destruct (le_bound e), (le_connected e); cbn [negb obind]; [|tauto..]. split; [|intros [H|H]; discriminate]. intros H. exfalso.
  unfold connect_to_tracker in H. destruct (connect_rounds 4 (make_connection_message udp_transaction_id) (le_socket e)) as [[[cid|x] s1]| |] eqn:C;
    cbn [obind] in H; try discriminate.
  - destruct (udp_send s1 _) as [[|] s2]; cbn [negb obind] in H; [|discriminate].
    unfold udp_recv in H. destruct (us_recvs s2) as [|[b|] r]; cbn [obind] in H; try discriminate.
    destruct (26 <? List.length (firstn 4000 b))%nat eqn:L; cbn [obind] in H; [|discriminate].
    apply Nat.ltb_lt in L. rewrite firstn_length in L.
    unfold slice in H.
    match type of H with context [if ?c then _ else _] => destruct c eqn:Z end; cbn [obind] in H.
    + match type of H with context [endpoints_from_bytes ?b] => destruct (endpoints_total b) as (es & Es); rewrite Es in H end. discriminate.
    + unfold fill in Z. rewrite app_length, repeat_length, firstn_length in Z. lia.
  - eapply connect_rounds_no_panic; eauto.
Qed.
