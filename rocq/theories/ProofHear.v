(** ProofHear: following what is heard (for C70) *)
From Verif Require Import Base Utf8 ModelBencode ModelMessages ModelTorrent ModelTracker ModelStream ModelPeer
  SpecBencode SpecMessages SpecWriter SpecPieces SpecStream SpecPeer SpecSession SpecWrites SpecVerdict
  ProofBase ProofMessages ProofPieces ProofStream ProofPeer ProofSession ProofOutput ProofWrites ProofVerdict.

(** ** The client follows what it hears *)
Definition conv (v : bytes * N * N) : raw := match v with (body, id, _) => (id, body) end.
Definition after (s : stream) (c : list heard) : stream := snd (read_messages (List.length c) s).
Definition next_heard (s : stream) (c : list heard) : heard := option_map conv (fst (read_stream (after s c))).

Lemma messages_S : forall n s, read_messages (n + 1) s =
  (fst (read_messages n s) ++ [fst (read_stream (snd (read_messages n s)))], snd (read_stream (snd (read_messages n s)))).
Proof.
  induction n as [|n IH]; intros s.
  - cbn [Nat.add read_messages fst snd app]. destruct (read_stream s). reflexivity.
  - cbn [Nat.add read_messages]. destruct (read_stream s) as [r s1]. rewrite IH. destruct (read_messages n s1). reflexivity.
Qed.
Lemma delivers_snoc : forall s c o, delivers s (c ++ [o]) <-> delivers s c /\ o = next_heard s c.
Proof.
  intros s c o. unfold delivers, next_heard, after. rewrite app_length. cbn [List.length]. rewrite messages_S. cbn [fst]. rewrite map_app. cbn [map].
  split.
  - intros E. apply app_inj_tail in E as [E1 E2]. split; [exact E1|]. rewrite <- E2. reflexivity.
  - intros [E ->]. rewrite E. reflexivity.
Qed.
Lemma after_snoc : forall s c o, after s (c ++ [o]) = snd (read_stream (after s c)).
Proof. intros s c o. unfold after. rewrite app_length. cbn [List.length]. rewrite messages_S. reflexivity. Qed.
Lemma delivers_starts : forall s a b, delivers s (a ++ b) -> delivers s a.
Proof.
  intros s a b. induction b as [|o b IH] using rev_ind; intros H; [now rewrite app_nil_r in H|].
  rewrite app_assoc in H. apply delivers_snoc in H as [H _]. auto.
Qed.
(** Two lists of attempts on one socket: one continues the other. *)
Lemma delivers_both : forall s c c', delivers s c -> delivers s c' -> (List.length c <= List.length c')%nat -> starts c c'.
Proof.
  intros s c c'. revert c. induction c' as [|o c' IH] using rev_ind; intros c D D' L.
  - destruct c; [apply starts_refl|cbn in L; lia].
  - destruct (Nat.eq_dec (List.length c) (List.length (c' ++ [o]))) as [E|E].
    + assert (EQ : c = c' ++ [o]) by (unfold delivers in D, D'; rewrite E in D; congruence). rewrite EQ. apply starts_refl.
    + apply delivers_snoc in D' as [D' _]. rewrite app_length in *. cbn [List.length] in *.
      eapply starts_trans; [apply (IH c D D'); lia|apply starts_app].
Qed.

Definition tracks (s : stream) (c : list heard) (x : peer) : Prop :=
  reads_like x (after s c) /\ (p_choked x = false <-> unchoked c) /\
  (announced c (p_metadata_size x) (p_extensions x) \/
   (p_metadata_size x = 0%N /\ p_extensions x = [] /\ forall n e, ~ announced c n e)).

Lemma tracks_new : forall pid s ih, tracks s [] (peer_new pid s ih).
Proof.
  intros pid s ih. split; [|split].
  - exists (st_sent s), (st_wsched s). unfold after. cbn [peer_new p_stream List.length read_messages snd]. now rewrite out_self.
  - cbn [peer_new p_choked]. split; [discriminate|]. intros [b H]. discriminate H.
  - right. split; [reflexivity|]. split; [reflexivity|]. intros n e. apply announced_nil.
Qed.
(** Only the stream, and of it only what was written, differs. *)
Definition same_but_written (x y : peer) : Prop :=
  p_choked y = p_choked x /\ p_metadata_size y = p_metadata_size x /\ p_extensions y = p_extensions x /\
  exists o w, p_stream y = out (p_stream x) o w.
Lemma tracks_same : forall s c x y, tracks s c x -> same_but_written x y -> tracks s c y.
Proof.
  intros s c x y ((o & w & R) & U & A) (E1 & E2 & E3 & o' & w' & E4). split; [|rewrite E1, E2, E3; auto].
  exists o', w'. rewrite E4, R. apply out_out.
Qed.
Lemma send_same : forall x m, same_but_written x (send_message x m).
Proof.
  intros x m. unfold same_but_written, send_message, write_stream, write_all. cbn [with_stream p_choked p_metadata_size p_extensions p_stream].
  repeat (split; [reflexivity|]). destruct (st_wsched (p_stream x)) as [|[n|] w]; eexists _, _; reflexivity.
Qed.
Lemma same_trans : forall x y z, same_but_written x y -> same_but_written y z -> same_but_written x z.
Proof.
  intros x y z (A1 & A2 & A3 & o & w & A4) (B1 & B2 & B3 & o' & w' & B4). unfold same_but_written. rewrite B1, B2, B3, A1, A2, A3.
  repeat (split; [reflexivity|]). exists o', w'. rewrite B4, A4. apply out_out.
Qed.
Lemma meta_same : forall x, same_but_written x (snd (peer_send_metadata_handshake x)).
Proof.
  intros x. unfold same_but_written, peer_send_metadata_handshake, send_metadata_handshake_request, write_all.
  destruct (st_wsched (p_stream x)) as [|[n|] w]; cbn [snd with_stream p_choked p_metadata_size p_extensions p_stream];
    (repeat (split; [reflexivity|])); eexists _, _; reflexivity.
Qed.

Definition then_apply (om : option message) (x : peer) : peer := match om with Some m => apply_message x m | None => x end.

Lemma tracks_apply : forall s c x x1 o om, tracks s c x -> o = next_heard s c -> x1 = with_stream x (p_stream x1) ->
  reads_like x1 (snd (read_stream (after s c))) ->
  match om with Some m => exists r, o = Some r /\ parsed r m | None => silent o end ->
  tracks s (c ++ [o]) (then_apply om x1).
Proof.
  intros s c x x1 o om (_ & U & A) EO E1 RL M.
  assert (F : p_choked x1 = p_choked x /\ p_metadata_size x1 = p_metadata_size x /\ p_extensions x1 = p_extensions x) by (rewrite E1; auto).
  destruct F as (F1 & F2 & F3). destruct om as [m|]; cbn [then_apply].
  - destruct M as (r & -> & P). destruct (apply_fields r m x1 P) as (C1 & _ & _ & C2 & C3 & _). split; [|split].
    + rewrite after_snoc. apply apply_reads_like. exact RL.
    + rewrite unchoked_some, C1, F1. unfold choke_or_unchoke. destruct (N.eqb_spec (fst r) 0) as [Z|Z]; cbn [orb].
      * rewrite Z. split; discriminate.
      * destruct (N.eqb_spec (fst r) 1) as [O|O]; [tauto|exact U].
    + destruct (states_size m) as [[n e]|] eqn:S; injection C2 as -> ->.
      * left. econstructor; eauto.
      * assert (NS : forall r' m', Some r = Some r' -> parsed r' m' -> states_size m' = None).
        { intros r' m' [= <-] P'. destruct (parsed_unique _ _ _ P P') as [C _]. unfold states_size in *. now rewrite <- C. }
        rewrite F2, F3. destruct A as [A|(A1 & A2 & A3)]; [left; apply an_before; auto|].
        right. split; [auto|]. split; [auto|]. intros n e B. apply announced_snoc in B as [(r' & m' & [= <-] & P' & S')|[B _]]; [|exact (A3 _ _ B)].
        rewrite (NS _ _ eq_refl P') in S'. discriminate.
  - assert (NS : forall r' m', o = Some r' -> parsed r' m' -> states_size m' = None) by (intros r' m' E P; exfalso; exact (M _ _ E P)).
    split; [rewrite after_snoc; exact RL|]. split.
    + rewrite F1, U. destruct o as [r|]; [|symmetry; apply unchoked_none]. rewrite unchoked_some.
      destruct (choke_or_unchoke r) eqn:CU; [|tauto]. exfalso. destruct r as [id body].
      assert (P : exists m, parsed (id, body) m).
      { unfold choke_or_unchoke in CU. cbn [fst] in CU. apply orb_true_iff in CU as [CU|CU]; apply N.eqb_eq in CU; subst id; eexists; exists 0%N; reflexivity. }
      destruct P as [m P]. exact (M _ _ eq_refl P).
    + rewrite F2, F3. destruct A as [A|(A1 & A2 & A3)]; [left; apply an_before; auto|].
      right. split; [auto|]. split; [auto|]. intros n e B. apply announced_snoc in B as [(r' & m' & E & P' & S')|[B _]]; [exact (M _ _ E P')|exact (A3 _ _ B)].
Qed.

(** One attempt to read. *)
Inductive hearing (s : stream) (c : list heard) (x : peer) (o : heard) : Prop :=
| he_fine om x1 : legible o -> read_message x = Ret (om, x1) -> tracks s (c ++ [o]) (then_apply om x1) ->
    match om with Some m => exists r, o = Some r /\ parsed r m | None => silent o end ->
    p_info_hash x1 = p_info_hash x -> p_active x1 = p_active x -> hearing s c x o
| he_abort id body : o = Some (id, body) -> unreadable body id -> read_message x = Panic -> hearing s c x o
| he_hang id body : o = Some (id, body) -> endless body id -> read_message x = OutOfFuel -> hearing s c x o.

Lemma hear : forall s c x, tracks s c x -> hearing s c x (next_heard s c).
Proof.
  intros s c x T. pose proof T as (RL & U & A). unfold next_heard at 1. set (r := fst (read_stream (after s c))).
  assert (EO : option_map conv r = next_heard s c) by reflexivity.
  destruct r as [[[body id] len]|] eqn:ER; subst r; cbn [option_map conv].
  - destruct (c17 body len id) as (CP & CH & _).
    assert (RM : forall P, new_raw body len id = P -> read_message x = match P with Ret m => Ret (res_ok m, with_stream x (snd (read_stream (p_stream x)))) | Panic => Panic | OutOfFuel => OutOfFuel end).
    { intros P <-. unfold read_message. destruct RL as (o & w & E). rewrite E, stream_out, ER. destruct (new_raw body len id) as [m| |]; reflexivity. }
    destruct (new_raw body len id) as [m| |] eqn:NR.
    + assert (LG : legible (Some (id, body))).
      { intros id' body' [= <- <-]. split; intros H; [apply CP in H|apply CH in H]; discriminate. }
      assert (RO : reading_of (Some (body, id, len)) (res_ok m)) by (cbn [reading_of]; rewrite NR; destruct m as [m|[]]; reflexivity).
      destruct (attempt x (after s c) _ _ RL ER RO) as (x1 & R1 & E1 & RL1 & _).
      assert (M : match res_ok m with Some m => exists r, Some (id, body) = Some r /\ parsed r m | None => silent (Some (id, body)) end).
      { destruct m as [m|[]]; cbn [res_ok]; [exists (id, body); split; [reflexivity|exists len; exact NR]|].
        intros r m' [= <-] [len' P]. cbn [fst snd] in P. apply (parsed_length _ _ _ len) in P. rewrite P in NR. discriminate. }
      eapply he_fine; eauto; [eapply tracks_apply; eauto|rewrite E1; reflexivity|rewrite E1; reflexivity].
    + eapply he_abort; [reflexivity|apply CP; reflexivity|exact (RM _ eq_refl)].
    + eapply he_hang; [reflexivity|apply CH; reflexivity|exact (RM _ eq_refl)].
  - destruct (attempt x (after s c) _ None RL ER eq_refl) as (x1 & R1 & E1 & RL1 & _).
    assert (M : silent None) by (intros r m H; discriminate H).
    assert (LG : legible None) by (intros id body H; discriminate H).
    eapply (he_fine s c x None None); eauto; [eapply (tracks_apply s c x x1 None None); eauto|rewrite E1; reflexivity|rewrite E1; reflexivity].
Qed.
