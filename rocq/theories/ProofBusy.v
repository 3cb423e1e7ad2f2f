(** ProofBusy: a peer that keeps a session going (for C72) *)
From Verif Require Import Base ModelBencode ModelMessages ModelTorrent ModelStream ModelPeer ModelClock
  SpecBencode SpecMessages SpecWriter SpecPieces SpecStream SpecPeer SpecSession SpecVerdict SpecClock
  ProofBase ProofMessages ProofPieces ProofStream ProofPeer ProofSession ProofOutput ProofVerdict ProofHear ProofTold ProofExactly ProofClock ProofTime ProofQuiet.

Definition size_body : bytes := 0%N :: s2b "d1:md11:ut_metadatai1ee13:metadata_sizei1ee".
Definition have_body : bytes := [0; 0; 0; 0]%N.
Definition have : heard := Some (4%N, have_body).
Definition opening_chunk : bytes := frame 20 size_body ++ frame 1 [] ++ frame 4 have_body.
Fixpoint haves (t : N) (m : nat) : list (N * tick) :=
  match m with O => [] | S m => (t, TData (frame 4 have_body)) :: haves (t + 100) m end.
Definition busy (now : N) (h : bytes) (m : nat) : list (N * tick) :=
  (now + 100, TData h)%N :: (now + 200, TData opening_chunk)%N :: haves (now + 300) m.

Lemma haves_later : forall m t now, (now < t)%N -> later now (haves t m).
Proof. induction m as [|m IH]; intros t now L; [constructor|]. constructor; [exact L|]. apply IH. lia. Qed.
Lemma listen_haves : forall m c now, holds c now [] (haves (now + 100) m) ->
  attempts m c = repeat have m /\ over_at m c = (now + 100 * N.of_nat m)%N /\ holds (snd (listen m c)) (over_at m c) [] [].
Proof.
  unfold attempts, over_at. induction m as [|m IH]; intros c now H.
  - destruct H as (T & H). cbn [listen fst snd map repeat]. split; [reflexivity|split; [lia|]]. split; [reflexivity|exact H].
  - cbn [haves] in H. rewrite <- (app_nil_r (frame 4 have_body)) in H.
    destruct (attempt_arrives c now (now + 100) 4 have_body [] (haves (now + 100 + 100) m) H) as (len & R & H1);
      [lia|apply haves_later; lia|lia|reflexivity|discriminate|].
    cbn [listen]. destruct (read_stream_c c) as [r c1]. cbn [fst snd] in R, H1. subst r.
    destruct (IH c1 (now + 100)%N H1) as (A & O & HQ). destruct (listen m c1) as [rs c2]. cbn [fst snd map repeat] in *.
    split; [rewrite A; reflexivity|split; [lia|exact HQ]].
Qed.
Definition busy_attempts (h : bytes) (m : nat) : list heard :=
  Some (19%N, h) :: [Some (20%N, size_body); Some (1%N, [])] ++ repeat have (S m).
Lemma listen_busy : forall now h m ws, List.length h = 68%nat -> hd 0%N h = 19%N ->
  let c := opened_at now (busy now h m) ws in
  attempts (4 + m) c = busy_attempts h m /\ over_at (4 + m) c = (now + 200 + 100 * N.of_nat m)%N /\
  holds (snd (listen (4 + m) c)) (over_at (4 + m) c) [] [].
Proof.
  intros now h m ws L Hh c.
  assert (H : holds c now [] (busy now h m)) by (unfold holds; cbn; auto).
  destruct (handshake_arrives c now (now + 100) h ((now + 200, TData opening_chunk)%N :: haves (now + 300) m)) as (R1 & H1);
    [exact H|lia|constructor; [cbn; lia|apply haves_later; lia]|auto|auto|].
  unfold attempts, over_at. cbn [listen Nat.add]. destruct (read_stream_c c) as [r c1]. cbn [fst snd] in R1, H1. subst r.
  destruct (attempt_arrives c1 (now + 100) (now + 200) 20 size_body (frame 1 [] ++ frame 4 have_body) (haves (now + 300) m)) as (l2 & R2 & H2);
    [exact H1|lia|apply haves_later; lia|lia|reflexivity|discriminate|].
  destruct (read_stream_c c1) as [r c2]. cbn [fst snd] in R2, H2. subst r.
  destruct (attempt_waiting c2 (now + 200) 1 [] (frame 4 have_body) (haves (now + 300) m)) as (l3 & R3 & H3);
    [exact H2|apply haves_later; lia|lia|reflexivity|discriminate|].
  destruct (read_stream_c c2) as [r c3]. cbn [fst snd] in R3, H3. subst r.
  destruct (attempt_waiting c3 (now + 200) 4 have_body [] (haves (now + 300) m)) as (l4 & R4 & H4);
    [rewrite app_nil_r; exact H3|apply haves_later; lia|lia|reflexivity|discriminate|].
  destruct (read_stream_c c3) as [r c4]. cbn [fst snd] in R4, H4. subst r.
  replace (now + 300)%N with (now + 200 + 100)%N in H4 by lia.
  destruct (listen_haves m c4 (now + 200) H4) as (A & O & HQ). unfold attempts, over_at in A, O, HQ.
  destruct (listen m c4) as [rs c5]. cbn [fst snd map] in *. unfold busy_attempts. cbn [app repeat]. rewrite A. split; [reflexivity|split; [exact O|exact HQ]].
Qed.

(** ** Such a session goes on *)
Lemma have_heard : ~ silent have.
Proof.
  intros S. destruct (new_raw have_body 5 4) as [[m|[]]| |] eqn:E; try (vm_compute in E; discriminate).
  apply (S (4%N, have_body) m eq_refl). exists 5%N. exact E.
Qed.
Lemma repeat_starts : forall A (x : A) n b, starts b (repeat x n) -> exists j, (j <= n)%nat /\ b = repeat x j.
Proof.
  induction n as [|n IH]; intros b (z & E).
  - exists 0%nat. split; [lia|]. destruct b; [reflexivity|discriminate].
  - destruct b as [|y b]; [exists 0%nat; split; [lia|reflexivity]|]. cbn in E. injection E as <- E.
    destruct (IH b (ex_intro _ z E)) as (j & L & ->). exists (S j). split; [lia|reflexivity].
Qed.
Lemma haves_idle : forall j, exists i, idle_is (repeat have j) i /\ (i < 11)%N.
Proof.
  intros [|j]; [exists 0%N; split; [apply idle_nil|lia]|]. exists 1%N. split; [|lia].
  replace (repeat have (S j)) with (repeat have j ++ [have]); [apply idle_heard, have_heard|].
  rewrite <- repeat_cons. reflexivity.
Qed.
Lemma haves_unchoked : forall c j, unchoked c -> unchoked (c ++ repeat have j).
Proof.
  intros c j (b & U). exists b. unfold last_of in *. rewrite somes_app, rev_app_distr.
  assert (E : forall l, find choke_or_unchoke (rev (somes (repeat have j)) ++ l) = find choke_or_unchoke l).
  { induction j as [|j IH]; intros l; [reflexivity|]. cbn [repeat]. change (somes (have :: repeat have j)) with ([(4%N, have_body)] ++ somes (repeat have j)).
    rewrite rev_app_distr, <- app_assoc, IH. reflexivity. }
  rewrite E. exact U.
Qed.
Lemma have_parsed : forall m, parsed (4%N, have_body) m -> (forall e, msg_content m <> CExtension e) /\ states_size m = None.
Proof.
  intros m [len P]. cbn [fst snd] in P. apply (parsed_length _ _ _ 0) in P.
  assert (X : match new_raw have_body 0 4 with Ret (Ok m) => (forall e, msg_content m <> CExtension e) /\ states_size m = None | _ => False end)
    by (vm_compute; split; [discriminate|reflexivity]).
  rewrite P in X. exact X.
Qed.
Lemma haves_announced : forall c j n e, announced c n e -> announced (c ++ repeat have j) n e.
Proof.
  intros c j n e A. induction j as [|j IH]; [now rewrite app_nil_r|]. cbn [repeat]. rewrite repeat_cons, app_assoc. apply an_before; [exact IH|].
  intros r m [= <-] P. now apply have_parsed.
Qed.
Lemma haves_blocks : forall j, blocks (repeat have j) = [] /\ metadata_blocks (repeat have j) [].
Proof.
  induction j as [|j [B M]]; [split; [reflexivity|constructor]|]. cbn [repeat]. split; [exact B|].
  apply mb_other; [|exact M]. intros m e P C. now elim (proj1 (have_parsed m P) e).
Qed.
Lemma busy_pending : forall ih cut (got : list heard -> list bytes -> Prop) needed (can_ask : list heard -> Prop) pid m,
  List.length ih = 20%nat -> List.length pid = 20%nat -> ~ cut -> needed 1%N <> 0%N ->
  (forall j l, got (repeat have j) l -> l = []) ->
  (forall c, (exists e, announced c 1 e /\ hm_get e (s2b "ut_metadata") <> None) -> can_ask c) ->
  pending ih cut got needed can_ask (busy_attempts (handshake_layout ih pid) m).
Proof.
  intros ih cut got needed can_ask pid m L LP NC NN G CA. unfold busy_attempts. set (h := handshake_layout ih pid).
  assert (A : exists e, announced [Some (19%N, h); Some (20%N, size_body); Some (1%N, [])] 1 e /\ hm_get e (s2b "ut_metadata") <> None).
  { assert (X : match new_raw size_body 0 20 with
      Ret (Ok m1) => match states_size m1 with Some (n, e) => n = 1%N /\ hm_get e (s2b "ut_metadata") <> None | None => False end
      | _ => False end) by (vm_compute; split; [reflexivity|discriminate]).
    destruct (new_raw size_body 0 20) as [[m1|[]]| |] eqn:E; try easy.
    destruct (states_size m1) as [[n e]|] eqn:SS; [|easy]. destruct X as (-> & X). exists e. split; [|exact X].
    apply (an_before [Some (19%N, h); Some (20%N, size_body)] (Some (1%N, []))).
    - apply (an_now [Some (19%N, h)] (20%N, size_body) m1); [exists 0%N; exact E|exact SS].
    - intros r m2 [= <-] [len P]. apply (parsed_length _ _ _ 0) in P. cbn [fst snd] in P.
      assert (Y : match new_raw [] 0 1 with Ret (Ok m) => states_size m = None | _ => False end) by (vm_compute; reflexivity).
      rewrite P in Y. exact Y. }
  apply (pe_blocks ih cut got needed can_ask (Some (19%N, h)) [Some (20%N, size_body); Some (1%N, [])] 1 (repeat have (S m))).
  - split; [|split; [exact NC|split; [discriminate|split; [cbn; lia|split; [|split; [|split; [discriminate|]]]]]]].
    + exists h. split; [reflexivity|]. subst h. split.
      * unfold handshake_layout. rewrite !app_length. change (List.length [19%N]) with 1%nat.
        change (List.length (s2b "BitTorrent protocol")) with 19%nat. change (List.length [0; 0; 0; 0; 0; 16; 0; 0]%N) with 8%nat. lia.
      * change (skipn 28 (handshake_layout ih pid)) with (ih ++ pid). rewrite firstn_app, L, firstn_all2, firstn_O, app_nil_r by lia. reflexivity.
    + exists []. reflexivity.
    + destruct A as (e & A & _). exists e. exact A.
    + intros a' (z & Nz & E) [(b & U) _]. destruct a' as [|x a']; [vm_compute in U; discriminate|]. injection E as <- E.
      destruct a' as [|y a']; [vm_compute in U; discriminate|]. injection E as <- E. destruct a'; [|discriminate]. cbn in E. apply Nz. symmetry. exact E.
  - intros b' S. apply repeat_starts in S as (j & _ & ->). destruct A as (e & A & HM).
    split; [|split; [|split]].
    + intros l GL. rewrite (G j l GL). cbn. congruence.
    + apply haves_unchoked. exists []. reflexivity.
    + intros _. apply CA. exists e. split; [|exact HM]. now apply haves_announced.
    + intros F. apply fell_idle in F. destruct (haves_idle j) as (i & I & Li). rewrite (idle_fun _ _ _ F I) in Li. lia.
Qed.

(** ** C72 *)
Lemma heard_incoming : forall k s, (messages (map brings (fst (read_messages k s))) + List.length (incoming (snd (read_messages k s))) <= List.length (incoming s))%nat.
Proof.
  unfold messages. induction k as [|k IH]; intros s; [cbn; lia|]. cbn [read_messages]. destruct (stream_incoming s) as (A & B).
  destruct (read_stream s) as [r s1]. cbn [fst snd] in *. specialize (IH s1). destruct (read_messages k s1) as [rs s2]. cbn [fst snd map] in *.
  destruct r as [[[body id] len]|]; cbn [brings option_map]; [specialize (B _ eq_refl)|];
    [change (somes (Some (id, body) :: map brings rs)) with ((id, body) :: somes (map brings rs))|change (somes (None :: map brings rs)) with (somes (map brings rs))];
    cbn [List.length]; lia.
Qed.
Lemma messages_sent : forall n k now evs ws, (k <= n)%nat -> (messages (attempts k (opened_at now evs ws)) <= List.length (sent_bytes evs))%nat.
Proof.
  intros n k now evs ws L. set (c := opened_at now evs ws). pose proof (heard_incoming k (socket_of k c)) as H.
  rewrite socket_log in H by reflexivity. cbn [fst] in H. pose proof (socket_incoming k c eq_refl) as I. unfold attempts.
  cbn [opened_at ck_stream st_avail List.length ck_events c] in I. unfold heard in *. lia.
Qed.
Lemma told_attempts : forall n k c, ck_log c = [] -> (k <= n)%nat -> Forall legible (attempts k c) -> told_by (socket_of n c) (attempts k c).
Proof.
  intros n k c L Lk F. split; [|exact F]. pose proof (attempts_delivered n c L) as D.
  replace n with (k + (n - k))%nat in D at 2 by lia. rewrite attempts_app in D. now apply delivers_starts in D.
Qed.
