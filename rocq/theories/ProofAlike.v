(** ProofAlike: sessions that differ only in what does not matter (for C74) *)
From Verif Require Import Base ModelBencode ModelMessages ModelTorrent ModelTracker ModelStream ModelPeer
  SpecBencode SpecMessages SpecWriter SpecPieces SpecStream SpecPeer SpecSession SpecWrites SpecVerdict SpecOutput SpecAlike
  ProofBase ProofMessages ProofPieces ProofStream ProofPeer ProofSession ProofOutput ProofWrites ProofVerdict ProofHear ProofTold ProofExactly.

Definition states (o : heard) (n : N) (e : hmap N) : Prop := exists r m, o = Some r /\ parsed r m /\ states_size m = Some (n, e).
Definition choke_of (o : heard) : option N := match o with Some r => if choke_or_unchoke r then Some (fst r) else None | None => None end.
Lemma unchoked_of : forall c o, unchoked (c ++ [o]) <-> match choke_of o with Some id => id = 1%N | None => unchoked c end.
Proof.
  intros c [r|]; [|apply unchoked_none]. rewrite unchoked_some. unfold choke_of. destruct (choke_or_unchoke r); reflexivity.
Qed.

Section Alike.
  Variable alike : heard -> heard -> Prop.
  Variable same : N -> hmap N -> N -> hmap N -> Prop.
  Variable ih : bytes.
  Variable cut : Prop.
  Variable got : list heard -> list bytes -> Prop.
  Variable needed : N -> N.
  Variable can_ask : list heard -> Prop.
  Hypothesis alike_sym : forall o o', alike o o' -> alike o' o.
  Hypothesis alike_silent : forall o o', alike o o' -> silent o -> silent o'.
  Hypothesis alike_choke : forall o o', alike o o' -> choke_of o = choke_of o'.
  Hypothesis alike_states : forall o o' n e, alike o o' -> states o n e -> exists n' e', states o' n' e' /\ same n e n' e'.
  Hypothesis same_some : forall n e n' e', same n e n' e' -> n <> 0%N -> n' <> 0%N.
  Hypothesis same_needed : forall n e n' e', same n e n' e' -> needed n = needed n'.
  Hypothesis got_alike : forall b b' l, Forall2 alike b b' -> got b l -> got b' l.
  Hypothesis can_alike : forall c c', Forall2 alike c c' -> can_ask c -> can_ask c'.
  Hypothesis greeting_alike : forall h h', greeting ih h -> greeting ih h' -> alike h h'.
  Let lists := Forall2 alike.

  Lemma lists_sym : forall c c', lists c c' -> lists c' c.
  Proof. intros c c' F. induction F; constructor; auto. Qed.
  Lemma lists_snoc : forall c o c', lists (c ++ [o]) c' -> exists d o', c' = d ++ [o'] /\ lists c d /\ alike o o'.
  Proof.
    intros c o c' F. apply Forall2_app_inv_l in F as (d & z & Fd & Fz & ->). inversion Fz as [|? o' ? ? A F']; subst. inversion F'; subst. eauto.
  Qed.
  Lemma unchoked_alike : forall c c', lists c c' -> unchoked c -> unchoked c'.
  Proof.
    induction c as [|o c IH] using rev_ind; intros c' F U; [inversion F; subst; exact U|].
    apply lists_snoc in F as (d & o' & -> & Fd & A). apply unchoked_of. apply unchoked_of in U. rewrite <- (alike_choke _ _ A).
    destruct (choke_of o); [exact U|]. now apply IH.
  Qed.
  Lemma announced_alike : forall c c' n e, lists c c' -> announced c n e -> exists n' e', announced c' n' e' /\ same n e n' e'.
  Proof.
    intros c c' n e F AN. revert c' F. induction AN as [c r m n e P S|c o n e AN IH NS]; intros c' F; apply lists_snoc in F as (d & o' & -> & Fd & A).
    - destruct (alike_states _ _ n e A) as (n' & e' & (r' & m' & -> & P' & S') & SA); [exists r, m; auto|]. exists n', e'. split; [|exact SA]. econstructor; eauto.
    - destruct (IH _ Fd) as (n' & e' & AN' & SA). exists n', e'. split; [|exact SA]. constructor; [exact AN'|].
      intros r' m' -> P'. destruct (states_size m') as [[k z]|] eqn:S; [|reflexivity]. exfalso.
      destruct (alike_states _ _ k z (alike_sym _ _ A)) as (k' & z' & (r & m & -> & P & S2) & _); [exists r', m'; auto|].
      rewrite (NS r m eq_refl P) in S2. discriminate.
  Qed.
  Lemma willing_alike : forall c c', lists c c' -> willing c -> willing c'.
  Proof.
    intros c c' F (U & n & e & A & N0). split; [eapply unchoked_alike; eauto|]. destruct (announced_alike _ _ _ _ F A) as (n' & e' & A' & S). exists n', e'. eauto.
  Qed.
  Lemma starts_alike : forall c c' d', lists c c' -> starts d' c' -> exists d, starts d c /\ lists d d'.
  Proof.
    intros c c' d' F (b & ->). apply lists_sym in F. apply Forall2_app_inv_l in F as (d & z & Fd & Fz & ->). exists d. split; [apply starts_app|]. now apply lists_sym.
  Qed.
  Lemma before_alike : forall c c' d', lists c c' -> starts_before d' c' -> exists d, starts_before d c /\ lists d d'.
  Proof.
    intros c c' d' F (b & Nb & ->). apply lists_sym in F. apply Forall2_app_inv_l in F as (d & z & Fd & Fz & ->). exists d.
    split; [|now apply lists_sym]. exists z. split; [|reflexivity]. intros ->. inversion Fz; subst. now apply Nb.
  Qed.
  Lemma lists_length : forall c c', lists c c' -> List.length c = List.length c'.
  Proof. intros c c' F. induction F; cbn [List.length]; congruence. Qed.
  Lemma lists_nil : forall c c', lists c c' -> c <> [] -> c' <> [].
  Proof. intros c c' F N E. subst. inversion F; subst. now apply N. Qed.
  Lemma silents_alike : forall c c', lists c c' -> Forall silent c -> Forall silent c'.
  Proof. intros c c' F. induction F; intros S; constructor; apply Forall_cons_iff in S as [S1 S2]; eauto. Qed.
  Lemma fell_alike : forall c c', lists c c' -> fell_silent c -> fell_silent c'.
  Proof.
    intros c c' F [[L S]|(a & o & q & -> & NS & L & S)].
    - left. split; [rewrite <- (lists_length _ _ F); exact L|eapply silents_alike; eauto].
    - right. apply Forall2_app_inv_l in F as (a' & z & Fa & Fz & ->). inversion Fz as [|? o' ? q' A Fq]; subst. exists a', o', q'.
      split; [reflexivity|]. split; [intros S'; apply NS; eapply alike_silent; [apply alike_sym; exact A|exact S']|].
      split; [rewrite <- (lists_length _ _ Fq); exact L|eapply silents_alike; eauto].
  Qed.
  Lemma asked_alike : forall b b' n, lists b b' -> asked_for got b n -> asked_for got b' n.
  Proof.
    intros b b' n F A. revert b' F. induction A as [|b o n l A IH G E|b o n l A IH G E]; intros b' F.
    - inversion F; subst. constructor.
    - apply lists_snoc in F as (d & o' & -> & Fd & Ao). eapply af_waits; [now apply IH|eapply got_alike; [|exact G]|exact E]. apply Forall2_app; [exact Fd|auto].
    - apply lists_snoc in F as (d & o' & -> & Fd & Ao). eapply af_asks; [now apply IH|eapply got_alike; [|exact G]|exact E]. apply Forall2_app; [exact Fd|auto].
  Qed.
  Lemma asks_alike : forall b b', lists b b' -> asks got b -> asks got b'.
  Proof.
    intros b b' F (d & o & n & l & -> & A & G & E). pose proof F as F0. apply lists_snoc in F as (d' & o' & -> & Fd & Ao). exists d', o', n, l.
    split; [reflexivity|]. split; [eapply asked_alike; eauto|]. split; [eapply got_alike; eauto|exact E].
  Qed.
  Lemma lacking_alike : forall b b' n n', lists b b' -> needed n = needed n' -> lacking got needed n b -> lacking got needed n' b'.
  Proof. intros b b' n n' F E L l G. rewrite <- E. apply L. eapply got_alike; [apply lists_sym; exact F|exact G]. Qed.
  Lemma going_alike : forall n n' c c' b b', lists c c' -> lists b b' -> needed n = needed n' ->
    going got needed can_ask n c b -> going got needed can_ask n' c' b'.
  Proof.
    intros n n' c c' b b' Fc Fb E (L & U & A & S). assert (F : lists (c ++ b) (c' ++ b')) by now apply Forall2_app.
    split; [eapply lacking_alike; eauto|]. split; [eapply unchoked_alike; eauto|]. split.
    - intros A'. eapply can_alike; [exact F|]. apply A. eapply asks_alike; [apply lists_sym; exact Fb|exact A'].
    - intros S'. apply S. eapply fell_alike; [apply lists_sym; exact Fb|exact S'].
  Qed.
  Lemma opened_alike : forall h a n h' a', lists a a' -> greeting ih h' -> opened ih cut h a n ->
    exists n', opened ih cut h' a' n' /\ needed n = needed n'.
  Proof.
    intros h a n h' a' F G' (G & NC & Na & La & U & (e & A) & N0 & W).
    assert (Fh : lists (h :: a) (h' :: a')) by (constructor; auto).
    destruct (announced_alike _ _ _ _ Fh A) as (n' & e' & A' & S). exists n'. split; [|eauto].
    split; [exact G'|split; [exact NC|split; [eapply lists_nil; eauto|split; [rewrite <- (lists_length _ _ F); exact La|]]]].
    split; [eapply unchoked_alike; eauto|]. split; [eauto|]. split; [eauto|].
    intros d' B W'. destruct (before_alike _ _ _ F B) as (d & B2 & Fd). apply (W d B2). eapply willing_alike; [|exact W'].
    apply lists_sym. constructor; auto.
  Qed.
  Lemma ends_alike : forall c c' en, sessions_alike alike ih c c' -> ends ih cut got needed can_ask c en -> ends ih cut got needed can_ask c' en.
  Proof.
    intros c c' en SA E. destruct SA as [|h h' t t' _ _ GG F]; [inversion E|].
    assert (GO : forall a n b b', lists b b' -> opened ih cut h a n -> forall a', lists a a' -> greeting ih h' -> forall n', needed n = needed n' ->
      (forall z, starts_before z b -> going got needed can_ask n (h :: a) z) -> forall z, starts_before z b' -> going got needed can_ask n' (h' :: a') z).
    { intros a n b b' Fb O a' Fa G' n' En H z Z. destruct (before_alike _ _ _ Fb Z) as (d & B2 & Fd). eapply going_alike; [|exact Fd|exact En|apply H; exact B2].
      constructor; [|exact Fa]. apply greeting_alike; [apply O|exact G']. }
    remember (h :: t) as c0 eqn:Ec.
    destruct E as [o G|g G C|g a G NC L W|g a n b l O GOb B GL E|g a n b O GOb B L U|g a n b O GOb B L U A NA|g a n b O GOb B L U A FS]; injection Ec as -> Et.
    - subst t. inversion F; subst. apply en_refused. tauto.
    - subst t. inversion F; subst. apply en_cut; tauto.
    - subst t. apply en_unwilling; [tauto|exact NC|rewrite <- (lists_length _ _ F); exact L|]. intros d' S W'.
      destruct (starts_alike _ _ _ F S) as (d & S2 & Fd). apply (W d S2). eapply willing_alike; [|exact W']. apply lists_sym. constructor; [|exact Fd].
      apply greeting_alike; tauto.
    - subst t. pose proof (proj1 O) as G. pose proof (proj1 GG G) as G'. apply Forall2_app_inv_l in F as (a' & b' & Fa & Fb & ->).
      destruct (opened_alike h a n h' a' Fa G' O) as (n' & O' & En). eapply en_received; [exact O'|eapply GO; eauto|eapply lists_nil; eauto|eapply got_alike; eauto|congruence].
    - subst t. pose proof (proj1 O) as G. pose proof (proj1 GG G) as G'. apply Forall2_app_inv_l in F as (a' & b' & Fa & Fb & ->).
      assert (FF : lists (h :: a ++ b) (h' :: a' ++ b')) by (constructor; [apply greeting_alike; auto|now apply Forall2_app]).
      destruct (opened_alike h a n h' a' Fa G' O) as (n' & O' & En). eapply en_choked; [exact O'|eapply GO; eauto|eapply lists_nil; eauto|eapply lacking_alike; eauto|].
      intros U'. apply U. eapply unchoked_alike; [apply lists_sym; exact FF|exact U'].
    - subst t. pose proof (proj1 O) as G. pose proof (proj1 GG G) as G'. apply Forall2_app_inv_l in F as (a' & b' & Fa & Fb & ->).
      assert (FF : lists (h :: a ++ b) (h' :: a' ++ b')) by (constructor; [apply greeting_alike; auto|now apply Forall2_app]).
      destruct (opened_alike h a n h' a' Fa G' O) as (n' & O' & En).
      eapply en_nameless; [exact O'|eapply GO; eauto|eapply lists_nil; eauto|eapply lacking_alike; eauto|eapply unchoked_alike; eauto|eapply asks_alike; eauto|].
      intros A'. apply NA. eapply can_alike; [apply lists_sym; exact FF|exact A'].
    - subst t. pose proof (proj1 O) as G. pose proof (proj1 GG G) as G'. apply Forall2_app_inv_l in F as (a' & b' & Fa & Fb & ->).
      assert (FF : lists (h :: a ++ b) (h' :: a' ++ b')) by (constructor; [apply greeting_alike; auto|now apply Forall2_app]).
      destruct (opened_alike h a n h' a' Fa G' O) as (n' & O' & En).
      eapply en_silent; [exact O'|eapply GO; eauto|eapply lists_nil; eauto|eapply lacking_alike; eauto|eapply unchoked_alike; eauto| |eapply fell_alike; eauto].
      intros A'. eapply can_alike; [exact FF|]. apply A. eapply asks_alike; [apply lists_sym; exact Fb|exact A'].
  Qed.
End Alike.

(** ** Kinds of messages *)
Lemma plain : forall r, fst r <> 20%N -> ~ unreadable (snd r) (fst r) ->
  (exists m, parsed r m) /\ forall m, parsed r m -> states_size m = None /\ forall e, msg_content m <> CExtension e.
Proof.
  intros [id body] N20 NU. cbn [fst snd] in *. destruct (c17 body 0 id) as (CP & CH & CE & _). split.
  - destruct (new_raw body 0 id) as [[m|[]]| |] eqn:E; [exists m, 0%N; exact E| | |]; exfalso.
    + apply N20. now apply CE.
    + apply NU. now apply CP.
    + apply N20. now apply CH.
  - intros m [len P]. cbn [fst snd] in P.
    assert (X : forall e, msg_content m <> CExtension e).
    { intros e C. unfold new_raw in P. rewrite (proj2 (N.eqb_neq id 20) N20) in P.
      destruct (id =? 2)%N; [injection P as <-; discriminate|]. destruct (id =? 5)%N; [injection P as <-; discriminate|].
      destruct ((id =? 7)%N || (id =? 6)%N); [destruct (request_from_bytes body); cbn [obind] in P; try discriminate; injection P as <-; discriminate|].
      destruct (id =? 19)%N; [destruct (handshake_from_bytes body); cbn [obind] in P; try discriminate; injection P as <-; discriminate|].
      injection P as <-. discriminate. }
    split; [|exact X]. unfold states_size. destruct (msg_content m) as [|e| | | |]; try reflexivity. now contradiction (X e).
Qed.
Lemma silent_20 : forall r, legible (Some r) -> silent (Some r) -> fst r = 20%N.
Proof.
  intros r L S. destruct (N.eq_dec (fst r) 20) as [E|E]; [exact E|]. exfalso. destruct (plain r E) as ((m & P) & _); [|exact (S _ _ eq_refl P)].
  destruct r as [id body]. apply (L id body eq_refl).
Qed.
(** Neither silent nor an extension message. *)
Definition speaks (r : raw) : Prop := fst r <> 20%N /\ ~ unreadable (snd r) (fst r).
Lemma idle_speaks : forall r, idle_talk r -> speaks r /\ choke_or_unchoke r = false /\ ((fst r =? 6) || (fst r =? 7))%N = false.
Proof.
  intros [id body] [NI L]. unfold speaks, unreadable, choke_or_unchoke. cbn [fst snd] in *.
  assert (Ns : id <> 0%N /\ id <> 1%N /\ id <> 6%N /\ id <> 7%N /\ id <> 20%N) by (cbn in NI; intuition).
  destruct Ns as (N0 & N1 & N6 & N7 & N20). split; [split; [exact N20|]|].
  - intros [[[U|U] _]|[[U1 U2]|[U _]]]; try contradiction. specialize (L U1). lia.
  - rewrite (proj2 (N.eqb_neq id 0) N0), (proj2 (N.eqb_neq id 1) N1), (proj2 (N.eqb_neq id 6) N6), (proj2 (N.eqb_neq id 7) N7). auto.
Qed.
Lemma block_speaks : forall r, block_like r -> speaks r /\ choke_or_unchoke r = false /\ ((fst r =? 6) || (fst r =? 7))%N = true.
Proof.
  intros [id body] [[E|E] L]; cbn [fst snd] in *; subst id; (split; [|split; reflexivity]); (split; [discriminate|]); unfold unreadable; cbn [snd];
    intros [[_ U]|[[U _]|[U _]]]; [lia|discriminate|discriminate|lia|discriminate|discriminate].
Qed.
Lemma choke_speaks : forall id body, id = 0%N \/ id = 1%N -> speaks (id, body).
Proof.
  intros id body D. split; cbn [fst snd]; [lia|]. unfold unreadable. lia.
Qed.
Lemma speaks_silent : forall r, speaks r -> ~ silent (Some r).
Proof. intros r [N20 NU] S. destruct (plain r N20 NU) as ((m & P) & _). exact (S _ _ eq_refl P). Qed.
Lemma speaks_states : forall r n e, speaks r -> ~ states (Some r) n e.
Proof.
  intros r n e [N20 NU] (r' & m & [= <-] & P & S). destruct (plain r N20 NU) as (_ & H). destruct (H m P) as [X _]. congruence.
Qed.
Lemma extension_silent : forall r e, extension r e -> ~ silent (Some r).
Proof. intros r e (m & P & _) S. exact (S _ _ eq_refl P). Qed.
Lemma extension_states : forall r e k z, extension r e -> (states (Some r) k z <-> ex_get_metadata_size e = Some k /\ z = ex_get_extensions e).
Proof.
  intros r e k z (m & P & C). split.
  - intros (r' & m' & [= <-] & P' & S). destruct (parsed_unique _ _ _ P P') as [CC _]. unfold states_size in S. rewrite <- CC, C in S.
    destruct (ex_get_metadata_size e); [|discriminate]. injection S as <- <-. auto.
  - intros [S ->]. exists r, m. split; [reflexivity|]. split; [exact P|]. unfold states_size. now rewrite C, S.
Qed.
Lemma silent_states : forall o n e, silent o -> ~ states o n e.
Proof. intros o n e S (r & m & -> & P & _). exact (S _ _ eq_refl P). Qed.
Lemma silent_choke : forall o, legible o -> silent o -> choke_of o = None.
Proof.
  intros [[id body]|] L S; [|reflexivity]. pose proof (silent_20 _ L S) as E. cbn [fst] in E. subst id. reflexivity.
Qed.

(** ** Sessions for pieces *)
Lemma piece_alike_sym : forall o o', piece_alike o o' -> piece_alike o' o.
Proof.
  intros o o' A. destruct A; [now apply pa_nothing|now apply pa_choke|apply pa_block; auto|eapply pa_extension; eauto; tauto|now apply pa_idle].
Qed.
Lemma piece_alike_silent : forall o o', piece_alike o o' -> silent o -> silent o'.
Proof.
  intros o o' A S. destruct A as [o o' _ _ _ S'|id b b' D|r r' B _ _|b b' e e' X _ _ _|r r' I _]; [exact S'| | | |]; exfalso; revert S.
  - apply speaks_silent. now apply choke_speaks.
  - apply speaks_silent. now apply block_speaks.
  - eapply extension_silent; eauto.
  - apply speaks_silent. now apply idle_speaks.
Qed.
Lemma piece_alike_choke : forall o o', piece_alike o o' -> choke_of o = choke_of o'.
Proof.
  intros o o' A. destruct A as [o o' L S L' S'|id b b' D|r r' B B' _|b b' e e' X _ _ _|r r' I I'].
  - now rewrite !silent_choke.
  - unfold choke_of, choke_or_unchoke. reflexivity.
  - unfold choke_of. now rewrite (proj1 (proj2 (block_speaks r B))), (proj1 (proj2 (block_speaks r' B'))).
  - reflexivity.
  - unfold choke_of. now rewrite (proj1 (proj2 (idle_speaks r I))), (proj1 (proj2 (idle_speaks r' I'))).
Qed.
Definition same_zero (n : N) (e : hmap N) (n' : N) (e' : hmap N) : Prop := n = 0%N <-> n' = 0%N.
Lemma piece_alike_states : forall o o' n e, piece_alike o o' -> states o n e -> exists n' e', states o' n' e' /\ same_zero n e n' e'.
Proof.
  intros o o' n e A S. destruct A as [o o' _ Si _ _|id b b' D|r r' B _ _|b b' x x' X X' NN ZZ|r r' I _].
  - now apply silent_states in S.
  - apply speaks_states in S; [destruct S|now apply choke_speaks].
  - apply speaks_states in S; [destruct S|now apply block_speaks].
  - apply (extension_states _ _ _ _ X) in S as [S ->]. destruct (ex_get_metadata_size x') as [n'|] eqn:E'; [|rewrite (proj2 NN eq_refl) in S; discriminate].
    exists n', (ex_get_extensions x'). split; [apply (extension_states _ _ _ _ X'); auto|]. rewrite S in ZZ. unfold same_zero.
    split; intros ->; [assert (Z : Some n' = Some 0%N) by now apply ZZ|assert (Z : Some n = Some 0%N) by now apply ZZ]; congruence.
  - apply speaks_states in S; [destruct S|now apply idle_speaks].
Qed.
Lemma piece_alike_blocks : forall b b', Forall2 piece_alike b b' -> blocks b = blocks b'.
Proof.
  intros b b' F. induction F as [|o o' c c' A F IH]; [reflexivity|].
  change (blocks (o :: c)) with (blocks ([o] ++ c)). change (blocks (o' :: c')) with (blocks ([o'] ++ c')). rewrite !blocks_app, IH. f_equal.
  assert (SB : forall o, legible o -> silent o -> blocks [o] = []).
  { intros [[id body]|] L S; [|reflexivity]. pose proof (silent_20 _ L S) as E. cbn [fst] in E. subst id. reflexivity. }
  destruct A as [o o' L S L' S'|id d d' D|[id d] [id' d'] B B' E|d d' x x' X X' NN ZZ|[id d] [id' d'] I I'].
  - now rewrite !SB.
  - unfold blocks. cbn [flat_map]. destruct D as [->| ->]; reflexivity.
  - apply block_speaks in B as (_ & _ & K). apply block_speaks in B' as (_ & _ & K'). cbn [fst snd] in *. unfold blocks. cbn [flat_map]. now rewrite K, K', E.
  - reflexivity.
  - apply idle_speaks in I as (_ & _ & K). apply idle_speaks in I' as (_ & _ & K'). cbn [fst snd] in *. unfold blocks. cbn [flat_map]. now rewrite K, K'.
Qed.
Lemma greeting_idle : forall ih h, greeting ih h -> exists r, h = Some r /\ idle_talk r.
Proof.
  intros ih h (b & -> & L & _). exists (19%N, b). split; [reflexivity|]. split; [cbn; intuition discriminate|auto].
Qed.
Lemma piece_ends_alike : forall ih cut k c c' en, sessions_alike piece_alike ih c c' -> piece_ends ih cut k c en -> piece_ends ih cut k c' en.
Proof.
  intros ih cut k c c' en. apply (ends_alike piece_alike same_zero).
  - exact piece_alike_sym.
  - exact piece_alike_silent.
  - exact piece_alike_choke.
  - exact piece_alike_states.
  - unfold same_zero. tauto.
  - reflexivity.
  - intros b b' l F <-. unfold piece_blocks. symmetry. now apply piece_alike_blocks.
  - auto.
  - intros h h' G G'. destruct (greeting_idle _ _ G) as (r & -> & I). destruct (greeting_idle _ _ G') as (r' & -> & I'). now apply pa_idle.
Qed.

(** ** Sessions for metadata *)
Lemma info_alike_sym : forall o o', info_alike o o' -> info_alike o' o.
Proof.
  intros o o' A. destruct A as [| |b b' e e' X X' S U T D|]; [now apply ia_nothing|now apply ia_choke| |now apply ia_idle].
  eapply ia_extension; eauto; try tauto. intros T'. symmetry. apply D. tauto.
Qed.
Lemma other_speaks : forall r, idle_talk r \/ block_like r -> speaks r /\ choke_or_unchoke r = false.
Proof. intros r [I|B]; [apply idle_speaks in I|apply block_speaks in B]; tauto. Qed.
Lemma info_alike_silent : forall o o', info_alike o o' -> silent o -> silent o'.
Proof.
  intros o o' A S. destruct A as [o o' _ _ _ S'|id b b' D|b b' e e' X X' _ _ _ _|r r' I _]; [exact S'| | |]; exfalso; revert S.
  - apply speaks_silent. now apply choke_speaks.
  - eapply extension_silent; eauto.
  - apply speaks_silent. now apply other_speaks.
Qed.
Lemma info_alike_choke : forall o o', info_alike o o' -> choke_of o = choke_of o'.
Proof.
  intros o o' A. destruct A as [o o' L S L' S'|id b b' D|b b' e e' X X' _ _ _ _|r r' I I'].
  - now rewrite !silent_choke.
  - reflexivity.
  - reflexivity.
  - unfold choke_of. now rewrite (proj2 (other_speaks r I)), (proj2 (other_speaks r' I')).
Qed.
Definition same_named (n : N) (e : hmap N) (n' : N) (e' : hmap N) : Prop :=
  n = n' /\ (hm_get e (s2b "ut_metadata") = None <-> hm_get e' (s2b "ut_metadata") = None).
Lemma info_alike_states : forall o o' n e, info_alike o o' -> states o n e -> exists n' e', states o' n' e' /\ same_named n e n' e'.
Proof.
  intros o o' n e A S. destruct A as [o o' _ Si _ _|id b b' D|b b' x x' X X' SS U T D|r r' I _].
  - now apply silent_states in S.
  - apply speaks_states in S; [destruct S|now apply choke_speaks].
  - apply (extension_states _ _ _ _ X) in S as [S ->]. exists n, (ex_get_extensions x'). split; [apply (extension_states _ _ _ _ X'); split; congruence|]. now split.
  - apply speaks_states in S; [destruct S|now apply other_speaks].
Qed.
Lemma no_block : forall r c l, speaks r -> metadata_blocks c l -> metadata_blocks (Some r :: c) l.
Proof.
  intros r c l [N20 NU] M. apply mb_other; [|exact M]. intros m e P C. destruct (plain r N20 NU) as (_ & H). now contradiction (proj2 (H m P) e).
Qed.
Lemma silent_block : forall o c l, silent o -> metadata_blocks c l -> metadata_blocks (o :: c) l.
Proof.
  intros [r|] c l S M; [|now constructor]. apply mb_other; [|exact M]. intros m e P. exfalso. exact (S _ _ eq_refl P).
Qed.
Lemma extension_block : forall r e c l, extension r e -> metadata_blocks c l ->
  metadata_blocks (Some r :: c) (if match ex_msg_type e with Some t => (t =? 1)%N | None => false end then ex_get_data e :: l else l).
Proof.
  intros r e c l (m & P & C) M. destruct (ex_msg_type e) as [t|] eqn:T; [destruct (N.eqb_spec t 1) as [->|N]|].
  - eapply mb_block; eauto.
  - apply mb_other; [|exact M]. intros m' e' P' C'. destruct (parsed_unique _ _ _ P P') as [CC _]. rewrite C, C' in CC. injection CC as <-. congruence.
  - apply mb_other; [|exact M]. intros m' e' P' C'. destruct (parsed_unique _ _ _ P P') as [CC _]. rewrite C, C' in CC. injection CC as <-. congruence.
Qed.
Lemma meta_tail : forall o c l, metadata_blocks (o :: c) l -> exists l', metadata_blocks c l'.
Proof. intros o c l M. inversion M; subst; eauto. Qed.
Lemma info_alike_blocks : forall b b', Forall2 info_alike b b' -> forall l, metadata_blocks b l -> metadata_blocks b' l.
Proof.
  intros b b' F. induction F as [|o o' c c' A F IH]; intros l M; [exact M|]. destruct (meta_tail _ _ _ M) as (l0 & M0). pose proof (IH _ M0) as M1.
  destruct A as [o o' L S L' S'|id d d' D|d d' x x' X X' SS U T D|r r' I I'].
  - rewrite (meta_fun _ _ _ M (silent_block _ _ _ S M0)). now apply silent_block.
  - rewrite (meta_fun _ _ _ M (no_block _ _ _ (choke_speaks id d D) M0)). apply no_block; [now apply choke_speaks|exact M1].
  - rewrite (meta_fun _ _ _ M (extension_block _ _ _ _ X M0)). pose proof (extension_block _ _ _ _ X' M1) as E.
    destruct (ex_msg_type x) as [t|] eqn:Tx; [destruct (N.eqb_spec t 1) as [->|N]|].
    + rewrite (proj1 T eq_refl) in E. cbn in E. now rewrite (D eq_refl).
    + destruct (ex_msg_type x') as [t'|]; [|exact E]. destruct (N.eqb_spec t' 1) as [->|N']; [|exact E]. pose proof (proj2 T eq_refl). congruence.
    + destruct (ex_msg_type x') as [t'|]; [|exact E]. destruct (N.eqb_spec t' 1) as [->|N']; [|exact E]. pose proof (proj2 T eq_refl). congruence.
  - rewrite (meta_fun _ _ _ M (no_block _ _ _ (proj1 (other_speaks r I)) M0)). apply no_block; [now apply other_speaks|exact M1].
Qed.
Lemma info_ends_alike : forall ih cut c c' en, sessions_alike info_alike ih c c' -> info_ends ih cut c en -> info_ends ih cut c' en.
Proof.
  intros ih cut c c' en. apply (ends_alike info_alike same_named).
  - exact info_alike_sym.
  - exact info_alike_silent.
  - exact info_alike_choke.
  - exact info_alike_states.
  - intros n e n' e' [-> _]. auto.
  - intros n e n' e' [-> _]. reflexivity.
  - intros b b' l F. now apply info_alike_blocks.
  - intros d d' F (n & e & A & H). destruct (announced_alike info_alike same_named info_alike_sym info_alike_states _ _ _ _ F A) as (n' & e' & A' & _ & U).
    exists n', e'. split; [exact A'|tauto].
  - intros h h' G G'. destruct (greeting_idle _ _ G) as (r & -> & I). destruct (greeting_idle _ _ G') as (r' & -> & I'). apply ia_idle; auto.
Qed.

(** ** C74 *)
Lemma ends_cut : forall ih (cut cut' : Prop) got needed can_ask c en, (cut <-> cut') -> ends ih cut got needed can_ask c en -> ends ih cut' got needed can_ask c en.
Proof.
  intros ih cut cut' got needed can_ask c en CC E.
  assert (O : forall h a n, opened ih cut h a n -> opened ih cut' h a n) by (unfold opened; intros h a n X; tauto).
  destruct E.
  - now apply en_refused.
  - apply en_cut; tauto.
  - apply en_unwilling; tauto.
  - econstructor; eauto.
  - econstructor; eauto.
  - econstructor; eauto.
  - econstructor; eauto.
Qed.
Lemma c74_piece : forall sha1 p fuel s s' pid pid' ep ep' i idx total,
  parse_socket_addr ep <> None -> parse_socket_addr ep' <> None -> get_total_length p i = Ret total ->
  (0 < i_piece_length i)%N -> (idx < piece_count total (i_piece_length i))%N -> (total + i_piece_length i <= 2 ^ 64)%N ->
  (idx < 2 ^ 32)%N -> (i_piece_length i < 2 ^ 32)%N -> (20 * N.to_nat idx + 20 <= List.length (i_pieces i))%nat ->
  (11 * List.length (incoming s) + 11 < fuel)%nat -> (11 * List.length (incoming s') + 11 < fuel)%nat ->
  (third_write_fails s <-> third_write_fails s') ->
  indistinct piece_alike (compute_info_hash sha1 i) s s' ->
  forall r, download sha1 p fuel (Some s) pid ep i idx = Ret r -> download sha1 p fuel (Some s') pid' ep' i idx = Ret r.
Proof.
  intros sha1 p fuel s s' pid pid' ep ep' i idx total E E' T H1 H2 H3 H4 H5 H6 F F' W IN r D.
  apply (c70_piece sha1 p fuel s pid ep i idx total E T H1 H2 H3 H4 H5 H6 F) in D as (c & en & TB & EN & R).
  destruct (IN c TB) as (c' & TB' & SA). apply (c70_piece sha1 p fuel s' pid' ep' i idx total E' T H1 H2 H3 H4 H5 H6 F').
  exists c', en. split; [exact TB'|]. split; [|exact R]. eapply piece_ends_alike; [exact SA|]. eapply ends_cut; [exact W|exact EN].
Qed.
Lemma c74_metadata : forall fuel s s' pid pid' ih ep ep',
  parse_socket_addr ep <> None -> parse_socket_addr ep' <> None ->
  (11 * List.length (incoming s) + 11 < fuel)%nat -> (11 * List.length (incoming s') + 11 < fuel)%nat ->
  (third_write_fails s <-> third_write_fails s') ->
  indistinct info_alike ih s s' ->
  forall r, get_info fuel (Some s) pid ih ep = Ret r -> get_info fuel (Some s') pid' ih ep' = Ret r.
Proof.
  intros fuel s s' pid pid' ih ep ep' E E' F F' W IN r D.
  apply (c70_metadata fuel s pid ih ep E F) in D as (c & en & TB & EN & R).
  destruct (IN c TB) as (c' & TB' & SA). apply (c70_metadata fuel s' pid' ih ep' E' F').
  exists c', en. split; [exact TB'|]. split; [|exact R]. eapply info_ends_alike; [exact SA|]. eapply ends_cut; [exact W|exact EN].
Qed.

(** ** Everything has arrived *)
Lemma speaks_legible : forall r, speaks r -> legible (Some r).
Proof. intros [id body] [N20 NU] id' body' [= <- <-]. split; [exact NU|]. intros [E _]. now apply N20. Qed.
Lemma extension_legible : forall body e, extension (20%N, body) e -> legible (Some (20%N, body)).
Proof.
  intros body e (m & (len & P) & _) id' body' [= <- <-]. cbn [fst snd] in P. destruct (c17 body len 20) as (CP & CH & _). split; intros U.
  - rewrite (proj2 CP U) in P. discriminate.
  - rewrite (proj2 CH U) in P. discriminate.
Qed.
Lemma piece_alike_legible : forall o o', piece_alike o o' -> legible o'.
Proof.
  intros o o' A. destruct A as [o o' _ _ L' _|id b b' D|r r' _ B' _|b b' e e' _ X' _ _|r r' _ I'].
  - exact L'.
  - apply speaks_legible. now apply choke_speaks.
  - apply speaks_legible. now apply block_speaks.
  - eapply extension_legible; eauto.
  - apply speaks_legible. now apply idle_speaks.
Qed.
Lemma info_alike_legible : forall o o', info_alike o o' -> legible o'.
Proof.
  intros o o' A. destruct A as [o o' _ _ L' _|id b b' D|b b' e e' _ X' _ _ _ _|r r' _ I'].
  - exact L'.
  - apply speaks_legible. now apply choke_speaks.
  - eapply extension_legible; eauto.
  - apply speaks_legible. now apply other_speaks.
Qed.
Lemma none_legible : legible None. Proof. intros id body X. discriminate X. Qed.
Lemma none_silent : silent None. Proof. intros r m X. discriminate X. Qed.

Definition then_nothing (n : nat) (l : list raw) : list heard := firstn n (map Some l ++ repeat None n).
Lemma firstn_none : forall (A : Type) n k, (k <= n)%nat -> firstn k (repeat (@None A) (S n)) = firstn k (repeat None n).
Proof.
  intros A n. induction n as [|n IH]; intros k L; [replace k with 0%nat by lia; reflexivity|]. destruct k as [|k]; [reflexivity|].
  change (repeat (@None A) (S (S n))) with (@None A :: repeat None (S n)). rewrite (firstn_cons k). rewrite IH by lia. reflexivity.
Qed.
Lemma arrived_told : forall n l s, Forall (fun m => short_body (snd m)) l -> arrived s (flat_map (fun m => frame (fst m) (snd m)) l) ->
  map (option_map (fun v => match v with (body, id, _) => (id, body) end)) (fst (read_messages n s)) = then_nothing n l.
Proof.
  induction n as [|n IH]; intros l s SB A; [destruct l; reflexivity|]. cbn [read_messages]. destruct l as [|[id body] l].
  - cbn [flat_map] in A. destruct (arrived_nothing s A) as [R A']. destruct (read_stream s) as [r s1]. cbn [fst snd] in *. subst r.
    specialize (IH [] s1 (Forall_nil _) A'). destruct (read_messages n s1) as [rs s2]. cbn [fst map option_map] in *. rewrite IH.
    unfold then_nothing. cbn [map app firstn repeat]. f_equal.
  - apply Forall_cons_iff in SB as [S1 SB]. cbn [flat_map fst snd] in A, S1. destruct (arrived_read _ _ _ _ S1 A) as (s1 & R & A'). rewrite R.
    specialize (IH l s1 SB A'). destruct (read_messages n s1) as [rs s2]. cbn [fst map option_map] in *. rewrite IH.
    unfold then_nothing. cbn [map app firstn]. f_equal. rewrite !firstn_app. f_equal. rewrite map_length.
    symmetry. apply firstn_none. lia.
Qed.
Lemma said_reads : forall ih s h l, handshake_for ih h -> Forall (fun m => short_body (snd m)) l ->
  arrived s (h ++ flat_map (fun m => frame (fst m) (snd m)) l) ->
  forall n, map (option_map (fun v => match v with (body, id, _) => (id, body) end)) (fst (read_messages (S n) s)) = Some (19%N, h) :: then_nothing n l.
Proof.
  intros ih s h l (LH & H19 & _) SB (A & IN & NE) n. cbn [read_messages].
  destruct (c30_handshake s h _ (all_no_errors 3 s NE) LH H19 A) as (s1 & m & R & I1 & A1). rewrite R.
  rewrite IN in I1. apply app_inv_head in I1.
  assert (M : m = []).
  { unfold incoming in I1. rewrite A1 in I1. apply (f_equal (@List.length N)) in I1. rewrite !app_length in I1. destruct m; [auto|cbn in I1; lia]. }
  subst m. rewrite app_nil_r in A1.
  assert (NE1 : Forall (fun t => t <> TErr) (st_sched s1)).
  { eapply later_no_errors; [|exact NE]. pose proof (stream_later s) as L. rewrite R in L. exact L. }
  pose proof (arrived_told n l s1 SB (conj A1 (conj (eq_sym I1) NE1))) as T. destruct (read_messages n s1) as [rs s2]. cbn [fst map option_map] in *. now rewrite T.
Qed.
Lemma firstn_forall2 : forall (A : Type) (R : A -> A -> Prop) n l l', Forall2 R l l' -> Forall2 R (firstn n l) (firstn n l').
Proof.
  intros A R n l l' F. revert n. induction F as [|a b l l' H F IH]; intros n; [rewrite !firstn_nil; constructor|].
  destruct n as [|n]; [constructor|]. cbn [firstn]. constructor; auto.
Qed.
Lemma then_alike : forall (alike : heard -> heard -> Prop), alike None None -> forall n l l', Forall2 (fun r r' => alike (Some r) (Some r')) l l' ->
  Forall2 alike (then_nothing n l) (then_nothing n l').
Proof.
  intros alike NN n l l' F. unfold then_nothing. apply firstn_forall2. apply Forall2_app.
  - induction F; constructor; auto.
  - clear -NN. induction n; constructor; auto.
Qed.
Lemma delivers_said : forall ih s h l c, handshake_for ih h -> Forall (fun m => short_body (snd m)) l ->
  arrived s (h ++ flat_map (fun m => frame (fst m) (snd m)) l) -> delivers s c ->
  c = [] \/ c = Some (19%N, h) :: then_nothing (List.length c - 1) l.
Proof.
  intros ih s h l c HF SB A D. destruct c as [|o c]; [now left|right]. unfold delivers in D. cbn [List.length] in D.
  rewrite (said_reads ih s h l HF SB A) in D. cbn [List.length]. rewrite Nat.sub_succ, Nat.sub_0_r. now symmetry.
Qed.
Lemma then_length : forall n l, List.length (then_nothing n l) = n.
Proof. intros n l. unfold then_nothing. rewrite firstn_length, app_length, repeat_length. lia. Qed.
Lemma handshake_legible : forall ih h, handshake_for ih h -> greeting ih (Some (19%N, h)) /\ legible (Some (19%N, h)).
Proof.
  intros ih h (L & _ & F). split; [exists h; split; [reflexivity|]; split; [lia|exact F]|]. apply speaks_legible. split; cbn [fst snd]; [discriminate|]. unfold unreadable.
  intros [[[X|X] _]|[[_ X]|[X _]]]; try discriminate. lia.
Qed.
Section Arrived.
  Variable alike : heard -> heard -> Prop.
  Hypothesis alike_nn : alike None None.
  Hypothesis alike_legible : forall o o', alike o o' -> legible o'.
  Lemma arrived_indistinct : forall ih s s' h h' l l', handshake_for ih h -> handshake_for ih h' ->
    Forall (fun m => short_body (snd m)) l -> Forall (fun m => short_body (snd m)) l' ->
    arrived s (h ++ flat_map (fun m => frame (fst m) (snd m)) l) -> arrived s' (h' ++ flat_map (fun m => frame (fst m) (snd m)) l') ->
    Forall2 (fun r r' => alike (Some r) (Some r')) l l' -> indistinct alike ih s s'.
  Proof.
    intros ih s s' h h' l l' HF HF' SB SB' A A' F c [D L]. destruct (delivers_said _ _ _ _ _ HF SB A D) as [-> | E].
    - exists []. split; [split; [reflexivity|constructor]|constructor].
    - assert (E' : exists n, c = Some (19%N, h) :: then_nothing n l) by eauto. clear E. destruct E' as (n & ->). pose proof (then_alike alike alike_nn n l l' F) as TA.
      exists (Some (19%N, h') :: then_nothing n l'). destruct (handshake_legible _ _ HF) as [G LH]. destruct (handshake_legible _ _ HF') as [G' LH']. split; [split|].
      + unfold delivers. cbn [List.length]. rewrite then_length. now apply (said_reads ih).
      + constructor; [exact LH'|]. clear -TA alike_legible. induction TA; constructor; eauto.
      + apply sa_first; auto. split; auto.
  Qed.
  Lemma arrived_legible : forall ih s h l l0 c, handshake_for ih h -> Forall (fun m => short_body (snd m)) l ->
    arrived s (h ++ flat_map (fun m => frame (fst m) (snd m)) l) -> Forall2 (fun r r' => alike (Some r) (Some r')) l0 l -> delivers s c -> Forall legible c.
  Proof.
    intros ih s h l l0 c HF SB A F D. destruct (delivers_said _ _ _ _ _ HF SB A D) as [-> | ->]; [constructor|].
    constructor; [now apply (handshake_legible ih)|]. pose proof (then_alike alike alike_nn (List.length c - 1) l0 l F) as TA.
    clear -TA alike_legible. induction TA; constructor; eauto.
  Qed.
End Arrived.
Lemma forall2_sym : forall (alike : heard -> heard -> Prop), (forall o o', alike o o' -> alike o' o) -> forall l l' : list raw,
  Forall2 (fun r r' => alike (Some r) (Some r')) l l' -> Forall2 (fun r r' => alike (Some r) (Some r')) l' l.
Proof. intros alike S l l' F. induction F; constructor; auto. Qed.
Lemma c74_arrived_piece : forall sha1 p fuel s s' pid pid' ep ep' i idx total h h' l l',
  parse_socket_addr ep <> None -> parse_socket_addr ep' <> None -> get_total_length p i = Ret total ->
  (0 < i_piece_length i)%N -> (idx < piece_count total (i_piece_length i))%N -> (total + i_piece_length i <= 2 ^ 64)%N ->
  (idx < 2 ^ 32)%N -> (i_piece_length i < 2 ^ 32)%N -> (20 * N.to_nat idx + 20 <= List.length (i_pieces i))%nat ->
  (11 * List.length (incoming s) + 11 < fuel)%nat -> (11 * List.length (incoming s') + 11 < fuel)%nat ->
  (third_write_fails s <-> third_write_fails s') ->
  handshake_for (compute_info_hash sha1 i) h -> handshake_for (compute_info_hash sha1 i) h' ->
  has_said s h l -> has_said s' h' l' ->
  Forall2 (fun r r' => piece_alike (Some r) (Some r')) l l' ->
  download sha1 p fuel (Some s) pid ep i idx = download sha1 p fuel (Some s') pid' ep' i idx.
Proof.
  intros sha1 p fuel s s' pid pid' ep ep' i idx total h h' l l' E E' T H1 H2 H3 H4 H5 H6 F F' W HF HF' [A SB] [A' SB'] FA.
  pose proof (c70_piece sha1 p fuel s pid ep i idx total E T H1 H2 H3 H4 H5 H6 F) as (_ & CP & CO).
  assert (NN : piece_alike None None) by (apply pa_nothing; try exact none_legible; exact none_silent).
  pose proof (arrived_indistinct _ NN piece_alike_legible _ _ _ _ _ _ _ HF HF' SB SB' A A' FA) as IN.
  destruct (download sha1 p fuel (Some s) pid ep i idx) as [r| |] eqn:D.
  - symmetry. exact (c74_piece sha1 p fuel s s' pid pid' ep ep' i idx total E E' T H1 H2 H3 H4 H5 H6 F F' W IN r D).
  - exfalso. destruct (proj1 CP eq_refl) as (c & _ & _ & id & body & DL & U).
    pose proof (arrived_legible _ NN piece_alike_legible _ _ _ _ _ _ HF SB A (forall2_sym _ piece_alike_sym _ _ FA) DL) as L.
    apply Forall_app in L as [_ L]. apply Forall_cons_iff in L as [L _]. destruct (L id body eq_refl) as [L1 L2]. contradiction.
  - exfalso. destruct (proj1 CO eq_refl) as (c & _ & _ & id & body & DL & U).
    pose proof (arrived_legible _ NN piece_alike_legible _ _ _ _ _ _ HF SB A (forall2_sym _ piece_alike_sym _ _ FA) DL) as L.
    apply Forall_app in L as [_ L]. apply Forall_cons_iff in L as [L _]. destruct (L id body eq_refl) as [L1 L2]. contradiction.
Qed.
Lemma c74_arrived_metadata : forall fuel s s' pid pid' ih ep ep' h h' l l',
  parse_socket_addr ep <> None -> parse_socket_addr ep' <> None ->
  (11 * List.length (incoming s) + 11 < fuel)%nat -> (11 * List.length (incoming s') + 11 < fuel)%nat ->
  (third_write_fails s <-> third_write_fails s') ->
  handshake_for ih h -> handshake_for ih h' ->
  has_said s h l -> has_said s' h' l' ->
  Forall2 (fun r r' => info_alike (Some r) (Some r')) l l' ->
  get_info fuel (Some s) pid ih ep = get_info fuel (Some s') pid' ih ep'.
Proof.
  intros fuel s s' pid pid' ih ep ep' h h' l l' E E' F F' W HF HF' [A SB] [A' SB'] FA.
  pose proof (c70_metadata fuel s pid ih ep E F) as (_ & CP & CO). pose proof (c70_metadata fuel s' pid' ih ep' E' F') as (_ & CP' & CO').
  assert (NN : info_alike None None) by (apply ia_nothing; try exact none_legible; exact none_silent).
  pose proof (arrived_indistinct _ NN info_alike_legible _ _ _ _ _ _ _ HF HF' SB SB' A A' FA) as IN.
  assert (LG : forall c id body, delivers s (c ++ [Some (id, body)]) -> ~ unreadable body id /\ ~ endless body id).
  { intros c id body DL. pose proof (arrived_legible _ NN info_alike_legible _ _ _ _ _ _ HF SB A (forall2_sym _ info_alike_sym _ _ FA) DL) as L.
    apply Forall_app in L as [_ L]. apply Forall_cons_iff in L as [L _]. exact (L id body eq_refl). }
  assert (TR : forall c en, told_by s c -> info_ends ih (third_write_fails s) c en -> exists c', told_by s' c' /\ info_ends ih (third_write_fails s') c' en).
  { intros c en TB EN. destruct (IN c TB) as (c' & TB' & SA). exists c'. split; [exact TB'|]. eapply info_ends_alike; [exact SA|]. eapply ends_cut; [exact W|exact EN]. }
  destruct (get_info fuel (Some s) pid ih ep) as [r| |] eqn:D.
  - symmetry. exact (c74_metadata fuel s s' pid pid' ih ep ep' E E' F F' W IN r D).
  - symmetry. apply CP'. right. destruct (proj1 CP eq_refl) as [(c & _ & _ & id & body & DL & U)|(c & en & TB & EN & X)].
    + exfalso. exact (proj1 (LG c id body DL) U).
    + destruct (TR c en TB EN) as (c' & TB' & EN'). eauto.
  - symmetry. apply CO'. right. destruct (proj1 CO eq_refl) as [(c & _ & _ & id & body & DL & U)|(c & d & TB & EN & X)].
    + exfalso. exact (proj2 (LG c id body DL) U).
    + destruct (TR c _ TB EN) as (c' & TB' & EN'). eauto.
Qed.
