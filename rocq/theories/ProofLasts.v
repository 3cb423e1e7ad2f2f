(** ProofLasts: proofs for C72 *)
From Verif Require Import Base ModelBencode ModelMessages ModelTorrent ModelTracker ModelStream ModelPeer ModelClock
  SpecBencode SpecMessages SpecWriter SpecPieces SpecStream SpecPeer SpecSession SpecWrites SpecVerdict SpecClock
  ProofBase ProofMessages ProofPieces ProofStream ProofPeer ProofSession ProofOutput ProofWrites ProofVerdict ProofHear ProofTold ProofExactly
  ProofClock ProofTime ProofQuiet ProofBusy.

Lemma over_at_app : forall k j c, over_at (k + j) c = over_at j (snd (listen k c)).
Proof. intros. unfold over_at. rewrite listen_app. reflexivity. Qed.
Lemma over_at_le : forall k c, (ck_now c <= over_at k c <= ck_now c + 8000 * N.of_nat k)%N.
Proof. intros. apply listen_lasts. Qed.
Lemma over_at_mono : forall k j c, (k <= j)%nat -> (over_at k c <= over_at j c)%N.
Proof.
  intros k j c L. replace j with (k + (j - k))%nat by lia. rewrite over_at_app. apply over_at_le.
Qed.

Section Timed.
  Variable ih : bytes.
  Variable cut : Prop.
  Variable got : list heard -> list bytes -> Prop.
  Variable needed : N -> N.
  Variable can_ask : list heard -> Prop.
  Hypothesis got_fun : forall b l l', got b l -> got b l' -> l = l'.
  Let ends := ends ih cut got needed can_ask.
  Let pending := pending ih cut got needed can_ask.

  Lemma told_bound : forall n now evs ws c en, (22 + 10 * List.length (sent_bytes evs) <= n)%nat ->
    told_by (socket_of n (opened_at now evs ws)) c -> ends c en ->
    (List.length c <= 22 + 10 * messages c)%nat /\ c = attempts (List.length c) (opened_at now evs ws).
  Proof.
    intros n now evs ws c en Ln [D F] E. pose proof (ends_length ih cut got needed can_ask c en E F) as L. split; [exact L|].
    apply (delivers_attempts n); [reflexivity|exact D|]. set (k := opened_at now evs ws) in *.
    pose proof (heard_incoming (List.length c) (socket_of n k)) as H. unfold delivers in D.
    assert (D' : map brings (fst (read_messages (List.length c) (socket_of n k))) = c) by exact D. rewrite D' in H.
    pose proof (socket_incoming n k eq_refl) as I. cbn [opened_at ck_stream st_avail List.length ck_events k] in I. unfold heard in *. lia.
  Qed.
  Lemma timed : forall n now evs ws (R : ending -> Prop), (22 + 10 * List.length (sent_bytes evs) <= n)%nat ->
    let c := opened_at now evs ws in
    (exists a en, told_by (socket_of n c) a /\ ends a en /\ R en) <->
    (exists k en, Forall legible (attempts k c) /\ ends (attempts k c) en /\ R en /\
       (k <= 22 + 10 * messages (attempts k c))%nat /\ (messages (attempts k c) <= List.length (sent_bytes evs))%nat /\
       (over_at k c <= now + 8000 * N.of_nat k)%N).
  Proof.
    intros n now evs ws R Ln c. split.
    - intros (a & en & T & E & Ra). destruct (told_bound n now evs ws a en Ln T E) as (L & EQ). fold c in EQ.
      exists (List.length a), en. rewrite <- EQ. destruct T as [D F]. split; [exact F|split; [exact E|split; [exact Ra|split; [exact L|]]]].
      split; [|apply (over_at_le _ c)]. rewrite EQ. apply (messages_sent (List.length a)). lia.
    - intros (k & en & F & E & Ra & L & M & _). exists (attempts k c), en. split; [|split; [exact E|exact Ra]].
      apply told_attempts; [reflexivity|unfold heard in *; lia|exact F].
  Qed.
  (** The session is over at most eleven attempts after the last sign of life. *)
  Lemma ends_when_quiet : forall n c k, ck_log c = [] -> (k + 11 <= n)%nat -> Forall legible (attempts k c) -> pending (attempts k c) ->
    quiet_for 1100 (snd (listen k c)) ->
    (forall c', pending c' -> ~ then_aborts (socket_of n c) c') /\ (forall c', pending c' -> ~ then_hangs (socket_of n c) c') /\
    forall a en, told_by (socket_of n c) a -> ends a en ->
      exists j, (1 <= j <= 11)%nat /\ a = attempts (k + j) c /\ over_at (k + j) c = (over_at k c + 100 * N.of_nat j)%N.
  Proof.
    intros n c k L Ln F P Q.
    assert (Qj : forall j, (j <= 11)%nat -> attempts (k + j) c = attempts k c ++ repeat None j /\ over_at (k + j) c = (over_at k c + 100 * N.of_nat j)%N).
    { intros j Lj. rewrite attempts_app, over_at_app. destruct (listen_quiet j _ _ Q) as (A & T & _); [lia|]. split; [|exact T].
      f_equal. unfold attempts. rewrite A. clear. induction j as [|j IH]; [reflexivity|]. cbn [repeat map brings option_map]. now rewrite IH. }
    assert (FN : forall j, Forall (eq (@None raw)) (repeat None j)).
    { intros j. apply Forall_forall. intros o I. apply repeat_spec in I. congruence. }
    assert (NP : forall b, starts (attempts (k + 11) c) b -> ~ pending b).
    { intros b S PB. pose proof (pending_starts ih cut got needed can_ask got_fun b _ PB S) as PB2. clear PB. rewrite (proj1 (Qj 11%nat ltac:(lia))) in PB2.
      revert PB2. apply pending_not_quiet; [exact F|apply FN|now rewrite repeat_length]. }
    assert (D : forall j, (j <= n)%nat -> delivers (socket_of n c) (attempts j c)).
    { intros j Lj. pose proof (attempts_delivered n c L) as D. replace n with (j + (n - j))%nat in D at 2 by lia. rewrite attempts_app in D.
      now apply delivers_starts in D. }
    assert (ST : forall c' id body, pending c' -> Forall legible c' -> delivers (socket_of n c) (c' ++ [Some (id, body)]) ->
      (unreadable body id \/ endless body id) -> False).
    { intros c' id body P' F' D' U.
      destruct (Nat.le_gt_cases (k + 11) (List.length c')) as [G|G].
      { apply (NP c'); [|exact P']. apply (delivers_both (socket_of n c)); [now apply D|now apply delivers_starts in D'|rewrite attempts_length; exact G]. }
      assert (E : c' ++ [Some (id, body)] = attempts (S (List.length c')) c).
      { pose proof (delivers_attempts n c (c' ++ [Some (id, body)]) L D') as E. rewrite app_length in E. cbn [List.length] in E.
        rewrite Nat.add_1_r in E. apply E. unfold heard in *. lia. }
      destruct (Nat.le_gt_cases (S (List.length c')) k) as [G2|G2].
      - replace k with (S (List.length c') + (k - S (List.length c')))%nat in F by lia. rewrite attempts_app, <- E in F.
        apply Forall_app in F as [F _]. apply Forall_app in F as [_ F]. apply Forall_inv in F. destruct (F id body eq_refl). tauto.
      - replace (S (List.length c')) with (k + (S (List.length c') - k))%nat in E by (unfold heard in *; lia).
        rewrite (proj1 (Qj (S (List.length c') - k)%nat ltac:(unfold heard in *; lia))) in E.
        destruct (S (List.length c') - k)%nat as [|j] eqn:EJ; [unfold heard in *; lia|].
        cbn [repeat] in E. rewrite repeat_cons, app_assoc in E. apply app_inj_tail in E as [_ E]. discriminate. }
    split; [|split].
    - intros c' P' (F' & id & body & D' & U). eapply ST; eauto.
    - intros c' P' (F' & id & body & D' & U). eapply ST; eauto.
    - intros a en [Da Fa] E. destruct (Nat.le_gt_cases (List.length a) k) as [G|G].
      { exfalso. eapply (pending_not_ended ih cut got needed can_ask got_fun); [|exact E].
        eapply (pending_starts ih cut got needed can_ask got_fun); [exact P|]. apply (delivers_both (socket_of n c)); [exact Da|apply D; lia|rewrite attempts_length; exact G]. }
      destruct (Nat.le_gt_cases (List.length a) (k + 11)) as [G2|G2].
      + exists (List.length a - k)%nat. split; [unfold heard in *; lia|].
        replace (k + (List.length a - k))%nat with (List.length a) by (unfold heard in *; lia).
        split; [apply (delivers_attempts n); [exact L|exact Da|unfold heard in *; lia]|].
        replace (List.length a) with (k + (List.length a - k))%nat at 1 by (unfold heard in *; lia).
        apply Qj. unfold heard in *. lia.
      + exfalso. apply (NP (attempts (k + 11) c)); [exists []; now rewrite app_nil_r|].
        eapply (ends_pending ih cut got needed can_ask got_fun); [exact E|].
        destruct (delivers_both (socket_of n c) (attempts (k + 11) c) a) as (z & Ez); [now apply D|exact Da|rewrite attempts_length; unfold heard in *; lia|].
        exists z. split; [|exact Ez]. intros ->. rewrite app_nil_r in Ez. rewrite Ez, attempts_length in G2. lia.
  Qed.
End Timed.

(** ** C72 *)
Lemma piece_fun : forall b l l', piece_blocks b l -> piece_blocks b l' -> l = l'.
Proof. unfold piece_blocks. congruence. Qed.
Lemma socket_fuel : forall n now evs ws fuel, (11 * List.length (sent_bytes evs) + 11 < fuel)%nat ->
  (11 * List.length (incoming (socket_of n (opened_at now evs ws))) + 11 < fuel)%nat.
Proof. intros n now evs ws fuel L. pose proof (socket_incoming n (opened_at now evs ws) eq_refl) as I. cbn [opened_at ck_stream st_avail List.length ck_events] in I. lia. Qed.

Lemma c72_attempt : forall c, (ck_now c <= over_at 1 c <= ck_now c + 8000)%N /\
  forall ms k, quiet_for ms c -> (100 * N.of_nat k <= ms)%N -> attempts k c = repeat None k /\ over_at k c = (ck_now c + 100 * N.of_nat k)%N.
Proof.
  intros c. split; [apply (over_at_le 1 c)|]. intros ms k Q L. destruct (listen_quiet k c ms Q L) as (A & T & _). split; [|exact T].
  unfold attempts. rewrite A. clear. induction k as [|k IH]; [reflexivity|]. cbn [repeat map brings option_map]. now rewrite IH.
Qed.
Lemma c72_piece : forall sha1 p fuel n now evs ws pid ep i idx total,
  parse_socket_addr ep <> None -> get_total_length p i = Ret total ->
  (0 < i_piece_length i)%N -> (idx < piece_count total (i_piece_length i))%N -> (total + i_piece_length i <= 2 ^ 64)%N ->
  (idx < 2 ^ 32)%N -> (i_piece_length i < 2 ^ 32)%N -> (20 * N.to_nat idx + 20 <= List.length (i_pieces i))%nat ->
  (11 * List.length (sent_bytes evs) + 11 < fuel)%nat -> (22 + 10 * List.length (sent_bytes evs) <= n)%nat ->
  let c := opened_at now evs ws in
  let ih := compute_info_hash sha1 i in
  let cut := exists n, nth_error ws 2 = Some (Some n) in
  let blks := piece_count (N.min (i_piece_length i) (total - idx * i_piece_length i)) 16384 in
  let hash := firstn 20 (skipn (20 * N.to_nat idx) (i_pieces i)) in
  forall r, download sha1 p fuel (Some (socket_of n c)) pid ep i idx = Ret r <->
    exists k en, Forall legible (attempts k c) /\ piece_ends ih cut blks (attempts k c) en /\ piece_result sha1 hash en r /\
      (k <= 22 + 10 * messages (attempts k c))%nat /\ (messages (attempts k c) <= List.length (sent_bytes evs))%nat /\
      (over_at k c <= now + 8000 * N.of_nat k)%N.
Proof.
  intros sha1 p fuel n now evs ws pid ep i idx total HP HT H1 H2 H3 H4 H5 H6 HF HN c ih cut blks hash r.
  destruct (c70_piece sha1 p fuel (socket_of n c) pid ep i idx total HP HT H1 H2 H3 H4 H5 H6 (socket_fuel n now evs ws fuel HF)) as (R & _).
  rewrite R. exact (timed ih cut piece_blocks (fun _ => blks) (fun _ => True) piece_fun n now evs ws (fun en => piece_result sha1 hash en r) HN).
Qed.
Lemma c72_metadata : forall fuel n now evs ws pid ih ep, parse_socket_addr ep <> None ->
  (11 * List.length (sent_bytes evs) + 11 < fuel)%nat -> (22 + 10 * List.length (sent_bytes evs) <= n)%nat ->
  let c := opened_at now evs ws in
  let cut := exists n, nth_error ws 2 = Some (Some n) in
  forall r, get_info fuel (Some (socket_of n c)) pid ih ep = Ret r <->
    exists k en, Forall legible (attempts k c) /\ info_ends ih cut (attempts k c) en /\ info_result en r /\
      (k <= 22 + 10 * messages (attempts k c))%nat /\ (messages (attempts k c) <= List.length (sent_bytes evs))%nat /\
      (over_at k c <= now + 8000 * N.of_nat k)%N.
Proof.
  intros fuel n now evs ws pid ih ep HP HF HN c cut r.
  destruct (c70_metadata fuel (socket_of n c) pid ih ep HP (socket_fuel n now evs ws fuel HF)) as (R & _).
  rewrite R. exact (timed ih cut metadata_blocks (fun n => piece_count n 16384) named meta_fun n now evs ws (fun en => info_result en r) HN).
Qed.

(** A download always comes to one of the outcomes of C70. *)
Lemma c72_silence : forall sha1 p fuel n now evs ws pid ep i idx total k,
  parse_socket_addr ep <> None -> get_total_length p i = Ret total ->
  (0 < i_piece_length i)%N -> (idx < piece_count total (i_piece_length i))%N -> (total + i_piece_length i <= 2 ^ 64)%N ->
  (idx < 2 ^ 32)%N -> (i_piece_length i < 2 ^ 32)%N -> (20 * N.to_nat idx + 20 <= List.length (i_pieces i))%nat ->
  (11 * List.length (sent_bytes evs) + 11 < fuel)%nat -> (k + 11 <= n)%nat ->
  let c := opened_at now evs ws in
  let ih := compute_info_hash sha1 i in
  let cut := exists n, nth_error ws 2 = Some (Some n) in
  let blks := piece_count (N.min (i_piece_length i) (total - idx * i_piece_length i)) 16384 in
  let hash := firstn 20 (skipn (20 * N.to_nat idx) (i_pieces i)) in
  Forall legible (attempts k c) -> piece_pending ih cut blks (attempts k c) -> quiet_for 1100 (snd (listen k c)) ->
  exists j en r, (1 <= j <= 11)%nat /\ piece_ends ih cut blks (attempts (k + j) c) en /\ piece_result sha1 hash en r /\
    download sha1 p fuel (Some (socket_of n c)) pid ep i idx = Ret r /\ over_at (k + j) c = (over_at k c + 100 * N.of_nat j)%N.
Proof.
  intros sha1 p fuel n now evs ws pid ep i idx total k HP HT H1 H2 H3 H4 H5 H6 HF HN c ih cut blks hash F P Q.
  destruct (c70_piece sha1 p fuel (socket_of n c) pid ep i idx total HP HT H1 H2 H3 H4 H5 H6 (socket_fuel n now evs ws fuel HF)) as (R & RP & RO).
  destruct (ends_when_quiet ih cut piece_blocks (fun _ => blks) (fun _ => True) piece_fun n c k eq_refl HN F P Q) as (NA & NH & E).
  destruct (download sha1 p fuel (Some (socket_of n c)) pid ep i idx) as [r| |].
  - destruct (proj1 (R r) eq_refl) as (a & en & T & Ea & Ra). destruct (E a en T Ea) as (j & Lj & -> & Tj).
    exists j, en, r. auto.
  - destruct (proj1 RP eq_refl) as (a & Pa & A). destruct (NA a Pa A).
  - destruct (proj1 RO eq_refl) as (a & Pa & A). destruct (NH a Pa A).
Qed.
Lemma c72_silence_metadata : forall fuel n now evs ws pid ih ep k, parse_socket_addr ep <> None ->
  (11 * List.length (sent_bytes evs) + 11 < fuel)%nat -> (k + 11 <= n)%nat ->
  let c := opened_at now evs ws in
  let cut := exists n, nth_error ws 2 = Some (Some n) in
  Forall legible (attempts k c) -> info_pending ih cut (attempts k c) -> quiet_for 1100 (snd (listen k c)) ->
  exists j en, (1 <= j <= 11)%nat /\ info_ends ih cut (attempts (k + j) c) en /\
    (forall r, get_info fuel (Some (socket_of n c)) pid ih ep = Ret r -> info_result en r) /\ over_at (k + j) c = (over_at k c + 100 * N.of_nat j)%N.
Proof.
  intros fuel n now evs ws pid ih ep k HP HF HN c cut F P Q.
  destruct (c70_metadata fuel (socket_of n c) pid ih ep HP (socket_fuel n now evs ws fuel HF)) as (R & RP & RO).
  destruct (ends_when_quiet ih cut metadata_blocks (fun n => piece_count n 16384) named meta_fun n c k eq_refl HN F P Q) as (NA & NH & E).
  destruct (get_info fuel (Some (socket_of n c)) pid ih ep) as [r| |].
  - destruct (proj1 (R r) eq_refl) as (a & en & T & Ea & Ra). destruct (E a en T Ea) as (j & Lj & -> & Tj).
    exists j, en. split; [exact Lj|split; [exact Ea|split; [|exact Tj]]]. intros r' [= <-]. exact Ra.
  - destruct (proj1 RP eq_refl) as [(a & Pa & A)|(a & en & T & Ea & _)]; [destruct (NA a Pa A)|].
    destruct (E a en T Ea) as (j & Lj & -> & Tj). exists j, en. split; [exact Lj|split; [exact Ea|split; [discriminate|exact Tj]]].
  - destruct (proj1 RO eq_refl) as [(a & Pa & A)|(a & d & T & Ea & _)]; [destruct (NH a Pa A)|].
    destruct (E a (Received d) T Ea) as (j & Lj & -> & Tj). exists j, (Received d). split; [exact Lj|split; [exact Ea|split; [discriminate|exact Tj]]].
Qed.

Lemma far_ends : forall n now evs ws ih cut got needed can_ask, (1 <= n)%nat -> Forall (fun e => now + 100 < fst e)%N evs ->
  let c := opened_at now evs ws in
  told_by (socket_of n c) [None] /\ ends ih cut got needed can_ask [None] Refused /\ over_at 1 c = (now + 100)%N.
Proof.
  intros n now evs ws ih cut got needed can_ask Ln Q c.
  assert (Qc : quiet_for 100 c) by (split; [reflexivity|split; [reflexivity|exact Q]]).
  destruct (listen_quiet 1 c 100 Qc) as (A & T & _); [cbn; lia|].
  assert (E : attempts 1 c = [None]) by (unfold attempts; rewrite A; reflexivity).
  split; [|split; [|exact T]].
  - rewrite <- E. apply told_attempts; [reflexivity|exact Ln|]. rewrite E. constructor; [intros id body H; discriminate H|constructor].
  - apply en_refused. intros (h & H & _). discriminate H.
Qed.
Lemma c72_far : forall sha1 p fuel n now evs ws pid ep i idx total,
  parse_socket_addr ep <> None -> get_total_length p i = Ret total ->
  (0 < i_piece_length i)%N -> (idx < piece_count total (i_piece_length i))%N -> (total + i_piece_length i <= 2 ^ 64)%N ->
  (idx < 2 ^ 32)%N -> (i_piece_length i < 2 ^ 32)%N -> (20 * N.to_nat idx + 20 <= List.length (i_pieces i))%nat ->
  (11 * List.length (sent_bytes evs) + 11 < fuel)%nat -> (1 <= n)%nat -> Forall (fun e => now + 100 < fst e)%N evs ->
  let c := opened_at now evs ws in
  download sha1 p fuel (Some (socket_of n c)) pid ep i idx = Ret (Err MEHandshake) /\
  (forall ih, get_info fuel (Some (socket_of n c)) pid ih ep = Ret (Err MEHandshake)) /\ over_at 1 c = (now + 100)%N.
Proof.
  intros sha1 p fuel n now evs ws pid ep i idx total HP HT H1 H2 H3 H4 H5 H6 HF HN Q c.
  split; [|split].
  - destruct (c70_piece sha1 p fuel (socket_of n c) pid ep i idx total HP HT H1 H2 H3 H4 H5 H6 (socket_fuel n now evs ws fuel HF)) as (R & _).
    apply R. destruct (far_ends n now evs ws (compute_info_hash sha1 i) (third_write_fails (socket_of n c)) piece_blocks
      (fun _ => piece_count (N.min (i_piece_length i) (total - idx * i_piece_length i)) 16384) (fun _ => True) HN Q) as (T & E & _).
    exists [None], Refused. split; [exact T|split; [exact E|constructor]].
  - intros ih. destruct (c70_metadata fuel (socket_of n c) pid ih ep HP (socket_fuel n now evs ws fuel HF)) as (R & _).
    apply R. destruct (far_ends n now evs ws ih (third_write_fails (socket_of n c)) metadata_blocks (fun n => piece_count n 16384) named HN Q) as (T & E & _).
    exists [None], Refused. split; [exact T|split; [exact E|constructor]].
  - apply (far_ends n now evs ws [] False piece_blocks (fun _ => 0%N) (fun _ => True) HN Q).
Qed.
Lemma busy_legible : forall h m, List.length h = 68%nat -> Forall legible (busy_attempts h m).
Proof.
  intros h m L. assert (K : forall id body, (id = 6%N \/ id = 7%N -> (8 <= List.length body)%nat) -> (id = 19%N -> (68 <= List.length body)%nat) -> id <> 20%N ->
    legible (Some (id, body))).
  { intros id body A B C id' body' [= <- <-]. split.
    - intros [[U V]|[[U V]|[U _]]]; [specialize (A U); lia|specialize (B U); lia|congruence].
    - intros [U _]. congruence. }
  assert (KH : legible have) by (apply K; [intros [E|E]; discriminate|discriminate|discriminate]).
  unfold busy_attempts. constructor; [apply K; [intros [E|E]; discriminate|intros _; lia|discriminate]|].
  constructor.
  - intros id body [= <- <-]. split.
    + intros [[[U|U] _]|[[U _]|[_ [U|U]]]]; try discriminate.
    + intros (_ & _ & U). vm_compute in U. discriminate.
  - constructor; [apply K; [intros [E|E]; discriminate|discriminate|discriminate]|].
    apply Forall_forall. intros o I. apply repeat_spec in I as ->. exact KH.
Qed.
Lemma holds_quiet : forall c now ms, holds c now [] [] -> quiet_for ms c.
Proof. intros c now ms (_ & E & A & C). split; [exact A|split; [exact C|]]. rewrite E. constructor. Qed.

Lemma c72_unlimited : forall sha1 p now T pid (pid' : bytes) ep i idx total,
  (forall x, List.length (sha1 x) = 20%nat) -> List.length pid' = 20%nat ->
  parse_socket_addr ep <> None -> get_total_length p i = Ret total ->
  (0 < i_piece_length i)%N -> (idx < piece_count total (i_piece_length i))%N -> (total + i_piece_length i <= 2 ^ 64)%N ->
  (idx < 2 ^ 32)%N -> (i_piece_length i < 2 ^ 32)%N -> (20 * N.to_nat idx + 20 <= List.length (i_pieces i))%nat ->
  let ih := compute_info_hash sha1 i in
  let blks := piece_count (N.min (i_piece_length i) (total - idx * i_piece_length i)) 16384 in
  exists evs fuel n k en r,
    let c := opened_at now evs [] in
    (22 + 10 * List.length (sent_bytes evs) <= n)%nat /\
    download sha1 p fuel (Some (socket_of n c)) pid ep i idx = Ret r /\
    piece_ends ih (exists n, nth_error (@nil (option nat)) 2 = Some (Some n)) blks (attempts k c) en /\
    piece_result sha1 (firstn 20 (skipn (20 * N.to_nat idx) (i_pieces i))) en r /\
    (now + T <= over_at k c)%N.
Proof.
  intros sha1 p now T pid pid' ep i idx total LS LP HP HT H1 H2 H3 H4 H5 H6 ih blks.
  set (h := handshake_layout ih pid'). set (m := N.to_nat T). set (evs := busy now h m).
  assert (LI : List.length ih = 20%nat) by apply LS.
  assert (LH : List.length h = 68%nat).
  { unfold h, handshake_layout. rewrite !app_length. change (List.length [19%N]) with 1%nat.
    change (List.length (s2b "BitTorrent protocol")) with 19%nat. change (List.length [0; 0; 0; 0; 0; 16; 0; 0]%N) with 8%nat. lia. }
  assert (NB : blks <> 0%N).
  { unfold blks. destruct (count_bounds total (i_piece_length i) H1) as (_ & _ & B). specialize (B idx H2).
    pose proof (meta_needed (N.min (i_piece_length i) (total - idx * i_piece_length i))). lia. }
  destruct (listen_busy now h m [] LH eq_refl) as (A & O & HQ). fold evs in A, O, HQ.
  set (n := (22 + 10 * List.length (sent_bytes evs) + (4 + m) + 11)%nat).
  set (fuel := (11 * List.length (sent_bytes evs) + 12)%nat).
  destruct (c72_silence sha1 p fuel n now evs [] pid ep i idx total (4 + m) HP HT H1 H2 H3 H4 H5 H6) as (j & en & r & Lj & E & R & D & Tj).
  - unfold fuel. lia.
  - unfold n. lia.
  - rewrite A. now apply busy_legible.
  - rewrite A. apply busy_pending; [exact LI|exact LP|intros (z & Z); discriminate Z|exact NB| |auto].
    intros q l G. unfold piece_blocks in G. rewrite (proj1 (haves_blocks q)) in G. congruence.
  - eapply holds_quiet. exact HQ.
  - exists evs, fuel, n, (4 + m + j)%nat, en, r. cbn zeta. split; [unfold n; lia|].
    split; [exact D|]. split; [exact E|]. split; [exact R|].
    rewrite Tj, O. unfold m. lia.
Qed.
