(** ProofVerdict: lemmas for C70 *)
From Verif Require Import Base Utf8 ModelBencode ModelMessages ModelTorrent ModelTracker ModelStream ModelPeer
  SpecBencode SpecMessages SpecWriter SpecPieces SpecStream SpecPeer SpecSession SpecWrites SpecVerdict
  ProofBase ProofMessages ProofPieces ProofStream ProofPeer ProofSession ProofOutput ProofWrites.

(** ** Lists *)
Lemma starts_app : forall A (a b : list A), starts a (a ++ b).
Proof. intros A a b. exists b. reflexivity. Qed.
Lemma starts_refl : forall A (a : list A), starts a a.
Proof. intros A a. exists []. now rewrite app_nil_r. Qed.
Lemma starts_before_starts : forall A (a b : list A), starts_before a b -> starts a b.
Proof. intros A a b (x & _ & E). exists x. exact E. Qed.
Lemma starts_snoc : forall A (a b : list A) o, starts a (b ++ [o]) -> starts a b \/ a = b ++ [o].
Proof.
  intros A a b o [x E]. destruct x as [|y x] using rev_ind; [right; rewrite app_nil_r in E; auto|].
  rewrite app_assoc in E. apply app_inj_tail in E as [E _]. left. exists x. exact E.
Qed.
Lemma before_snoc : forall A (a b : list A) o, starts_before a (b ++ [o]) -> starts a b.
Proof.
  intros A a b o (x & NE & E). destruct x as [|y x] using rev_ind; [congruence|].
  rewrite app_assoc in E. apply app_inj_tail in E as [E _]. exists x. exact E.
Qed.
Lemma starts_nil : forall A (a : list A), starts a [] -> a = [].
Proof. intros A a [x E]. symmetry in E. apply app_eq_nil in E. tauto. Qed.
Lemma starts_trans : forall A (a b c : list A), starts a b -> starts b c -> starts a c.
Proof. intros A a b c [x ->] [y ->]. exists (x ++ y). now rewrite app_assoc. Qed.
Lemma starts_cases : forall A (a c : list A), starts a c -> starts_before a c \/ a = c.
Proof. intros A a c [x ->]. destruct x as [|y x]; [right; now rewrite app_nil_r|left; exists (y :: x); split; [discriminate|reflexivity]]. Qed.
Lemma app_split : forall A (a b c d : list A), a ++ b = c ++ d -> starts_before c a \/ exists y, c = a ++ y /\ b = y ++ d.
Proof.
  induction a as [|x a IH]; intros b c d E.
  - right. exists c. auto.
  - destruct c as [|y c]; [left; exists (x :: a); split; [discriminate|reflexivity]|].
    cbn [app] in E. injection E as <- E. destruct (IH _ _ _ E) as [(z & NZ & ->)|(z & -> & ->)].
    + left. exists z. auto.
    + right. exists z. auto.
Qed.

(** ** What is said about the attempts *)
Lemma announced_snoc : forall c o n e, announced (c ++ [o]) n e ->
  (exists r m, o = Some r /\ parsed r m /\ states_size m = Some (n, e)) \/
  (announced c n e /\ forall r m, o = Some r -> parsed r m -> states_size m = None).
Proof.
  intros c o n e H. inversion H as [c' r m n' e' P S E|c' o' n' e' A S E]; apply app_inj_tail in E as [E1 E2]; subst; eauto 6.
Qed.
Lemma announced_nil : forall n e, ~ announced [] n e.
Proof. intros n e H. inversion H as [c r m n' e' P S E|c o n' e' A S E]; destruct c; discriminate. Qed.
Lemma announced_fun : forall c n e n' e', announced c n e -> announced c n' e' -> n = n' /\ e = e'.
Proof.
  induction c as [|o c IH] using rev_ind; intros n e n' e' A B; [exfalso; exact (announced_nil _ _ A)|].
  apply announced_snoc in A. apply announced_snoc in B.
  destruct A as [(r & m & -> & P & S)|[A NA]], B as [(r' & m' & E & P' & S')|[B NB]].
  - injection E as <-. destruct (parsed_unique _ _ _ P P') as [C _]. unfold states_size in *. rewrite C in S. rewrite S in S'. injection S' as <- <-. auto.
  - rewrite (NB _ _ eq_refl P) in S. discriminate.
  - subst o. rewrite (NA _ _ eq_refl P') in S'. discriminate.
  - eauto.
Qed.
Lemma somes_app : forall A (a b : list (option A)), somes (a ++ b) = somes a ++ somes b.
Proof. intros A a b. unfold somes. apply flat_map_app. Qed.
Lemma last_of_snoc : forall A (f : A -> bool) l x, last_of f (l ++ [x]) = if f x then Some x else last_of f l.
Proof. intros A f l x. unfold last_of. rewrite rev_app_distr. cbn [rev app find]. reflexivity. Qed.
Lemma unchoked_none : forall c, unchoked (c ++ [None]) <-> unchoked c.
Proof. intros c. unfold unchoked. rewrite somes_app. cbn [somes flat_map app]. rewrite app_nil_r. tauto. Qed.
Lemma unchoked_some : forall c r, unchoked (c ++ [Some r]) <-> if choke_or_unchoke r then fst r = 1%N else unchoked c.
Proof.
  intros c [id body]. unfold unchoked. rewrite somes_app. cbn [somes flat_map app]. rewrite last_of_snoc.
  destruct (choke_or_unchoke (id, body)); cbn [fst]; [|tauto]. split; [intros [b [= -> ->]]; auto|intros ->; eauto].
Qed.

(** The trailing silence. *)
Definition idle_is (b : list heard) (i : N) : Prop :=
  (Forall silent b /\ i = N.of_nat (List.length b)) \/
  exists a o q, b = a ++ o :: q /\ ~ silent o /\ Forall silent q /\ i = (1 + N.of_nat (List.length q))%N.
Lemma idle_nil : idle_is [] 0.
Proof. left. split; [constructor|reflexivity]. Qed.
Lemma idle_silent : forall b o i, silent o -> idle_is b i -> idle_is (b ++ [o]) (i + 1).
Proof.
  intros b o i S [[F ->]|(a & x & q & -> & NS & F & ->)].
  - left. split; [apply Forall_app; split; [auto|constructor; [auto|constructor]]|]. rewrite app_length. cbn [List.length]. lia.
  - right. exists a, x, (q ++ [o]). split; [now rewrite <- app_assoc|]. split; [auto|].
    split; [apply Forall_app; split; [auto|constructor; [auto|constructor]]|]. rewrite app_length. cbn [List.length]. lia.
Qed.
Lemma idle_heard : forall b o, ~ silent o -> idle_is (b ++ [o]) 1.
Proof. intros b o S. right. exists b, o, []. split; [reflexivity|]. split; [auto|]. split; [constructor|reflexivity]. Qed.
Lemma idle_snoc : forall b o i, idle_is (b ++ [o]) i -> (silent o /\ exists j, i = (j + 1)%N /\ idle_is b j) \/ (~ silent o /\ i = 1%N).
Proof.
  intros b o i [[F ->]|(a & x & q & E & NS & F & ->)].
  - apply Forall_app in F as [F1 F2]. left. split; [now inversion F2|]. exists (N.of_nat (List.length b)).
    split; [rewrite app_length; cbn [List.length]; lia|]. left. auto.
  - destruct q as [|y q] using rev_ind.
    + apply app_inj_tail in E as [-> ->]. right. split; [auto|reflexivity].
    + clear IHq. rewrite app_comm_cons, app_assoc in E. apply app_inj_tail in E as [-> ->]. apply Forall_app in F as [F1 F2].
      left. split; [now inversion F2|]. exists (1 + N.of_nat (List.length q))%N. split; [rewrite app_length; cbn [List.length]; lia|].
      right. exists a, x, q. auto.
Qed.
Lemma idle_fun : forall b i j, idle_is b i -> idle_is b j -> i = j.
Proof.
  induction b as [|o b IH] using rev_ind; intros i j A B.
  - assert (Z : forall k, idle_is [] k -> k = 0%N).
    { intros k [[_ ->]|(a & x & q & E & _)]; [reflexivity|destruct a; discriminate]. }
    rewrite (Z _ A), (Z _ B). reflexivity.
  - apply idle_snoc in A, B. destruct A as [(S & i' & -> & A)|[S ->]], B as [(S' & j' & -> & B)|[S' ->]]; try tauto; try reflexivity.
    rewrite (IH _ _ A B). reflexivity.
Qed.
Lemma fell_idle : forall b, fell_silent b <-> idle_is b 11.
Proof.
  intros b. split.
  - intros [[L F]|(a & o & q & -> & NS & L & F)]; [left; split; [auto|lia]|].
    right. exists a, o, q. split; [reflexivity|]. split; [auto|]. split; [auto|lia].
  - intros [[F L]|(a & o & q & -> & NS & F & L)]; [left; split; [lia|auto]|].
    right. exists a, o, q. split; [reflexivity|]. split; [auto|]. split; [lia|auto].
Qed.

(** ** A session ends in one way *)
Section Det.
  Variable ih : bytes.
  Variable cut : Prop.
  Variable got : list heard -> list bytes -> Prop.
  Variable needed : N -> N.
  Variable can_ask : list heard -> Prop.
  Hypothesis got_fun : forall b l l', got b l -> got b l' -> l = l'.

  Let opened := opened ih cut.
  Let going := going got needed can_ask.
  Let pending := pending ih cut got needed can_ask.
  Let ends := ends ih cut got needed can_ask.

  Lemma opened_willing : forall h a n, opened h a n -> willing (h :: a).
  Proof. intros h a n (_ & _ & _ & _ & U & (e & A) & NZ & _). split; eauto. Qed.
  Lemma opened_once : forall h a n a' n' b b', opened h a n -> opened h a' n' -> a ++ b = a' ++ b' -> a = a' /\ n = n' /\ b = b'.
  Proof.
    intros h a n a' n' b b' O O' E.
    assert (EA : a = a').
    { destruct (app_split _ _ _ _ _ E) as [B|(y & -> & _)].
      - exfalso. destruct O as (_ & _ & _ & _ & _ & _ & _ & N). exact (N _ B (opened_willing _ _ _ O')).
      - destruct y as [|y l]; [now rewrite app_nil_r|]. exfalso. destruct O' as (_ & _ & _ & _ & _ & _ & _ & N).
        apply (N a); [exists (y :: l); split; [discriminate|reflexivity]|exact (opened_willing _ _ _ O)]. }
    subst a'. split; [reflexivity|]. split; [|now apply app_inv_head in E].
    destruct O as (_ & _ & _ & _ & _ & (e & A) & _), O' as (_ & _ & _ & _ & _ & (e' & A') & _).
    now destruct (announced_fun _ _ _ _ _ A A').
  Qed.
  Lemma opened_not_opening : forall h a n b, opened h a n -> (forall a', starts a' (a ++ b) -> ~ willing (h :: a')) -> False.
  Proof. intros h a n b O N. apply (N a); [apply starts_app|exact (opened_willing _ _ _ O)]. Qed.

  (** What an ending says about the part after the opening. *)
  Lemma ends_not_going : forall h a n b e, opened h a n -> ends (h :: a ++ b) e -> ~ going n (h :: a) b.
  Proof.
    intros h a n b e O H (L & U & C & F). remember (h :: a ++ b) as c eqn:EC. destruct H as [o NG|h' G K|h' a' G NK LA NW|h' a' n' b' l O' P NE G Q|h' a' n' b' O' P NE L' NU|h' a' n' b' O' P NE L' U' AS NC|h' a' n' b' O' P NE L' U' AS FS].
    - injection EC as -> _. destruct O as (G & _). exact (NG G).
    - destruct O as (_ & NC & _). exact (NC K).
    - injection EC as -> ->. exact (opened_not_opening _ _ _ _ O NW).
    - injection EC as -> E. destruct (opened_once _ _ _ _ _ _ _ O' O E) as (-> & -> & ->). exact (L _ G Q).
    - injection EC as -> E. destruct (opened_once _ _ _ _ _ _ _ O' O E) as (-> & -> & ->). exact (NU U).
    - injection EC as -> E. destruct (opened_once _ _ _ _ _ _ _ O' O E) as (-> & -> & ->). exact (NC (C AS)).
    - injection EC as -> E. destruct (opened_once _ _ _ _ _ _ _ O' O E) as (-> & -> & ->). exact (F FS).
  Qed.

  Lemma pending_not_ended : forall c e, pending c -> ends c e -> False.
  Proof.
    intros c e P H. destruct P as [|h a G NC L N|h a n b O P].
    - inversion H.
    - inversion H as [o NG|h' G' K|h' a' G' NK LA NW|h' a' n' b' l O' P' NE G' Q|h' a' n' b' O' P' NE L' NU|h' a' n' b' O' P' NE L' U' AS NC'|h' a' n' b' O' P' NE L' U' AS FS]; subst; try tauto; try lia;
        exact (opened_not_opening _ _ _ _ O' N).
    - apply (ends_not_going _ _ _ _ _ O H). apply P. apply starts_refl.
  Qed.

  Lemma ends_fun : forall c e e', ends c e -> ends c e' -> e = e'.
  Proof.
    intros c e e' H H'.
    destruct H as [o NG|h G K|h a G NK LA NW|h a n b l O P NE G Q|h a n b O P NE L NU|h a n b O P NE L U AS NC|h a n b O P NE L U AS FS].
    1-3: inversion H' as [o' NG'|h' G' K'|h' a' G' NK' LA' NW'|h' a' n' b' l' O' P' NE' G' Q'|h' a' n' b' O' P' NE' L' NU'|h' a' n' b' O' P' NE' L' U' AS' NC'|h' a' n' b' O' P' NE' L' U' AS' FS']; subst;
      try reflexivity; try tauto; try discriminate; try (destruct O' as (? & ? & ?); tauto);
      try (exfalso; exact (opened_not_opening _ _ _ _ O' NW)).
    all: inversion H' as [o' NG'|h' G' K'|h' a' G' NK' LA' NW'|h' a' n' b' l' O' P' NE' G' Q'|h' a' n' b' O' P' NE' L' NU'|h' a' n' b' O' P' NE' L' U' AS' NC'|h' a' n' b' O' P' NE' L' U' AS' FS']; subst.
    all: try (destruct O as (? & ? & ?); tauto).
    all: try (exfalso; exact (opened_not_opening _ _ _ _ O NW')).
    all: match goal with E : ?x ++ ?y = ?z ++ ?w |- _ => destruct (opened_once _ _ _ _ _ _ _ O' O E) as (E1 & E2 & E3) end; subst.
    all: try reflexivity; try contradiction; try (exfalso; match goal with N : ~ ?A, B : ?C -> ?A, D : ?C |- _ => exact (N (B D)) end).
    all: try (exfalso; match goal with L : lacking _ _ _ ?b, G : got ?b ?l, Q : countN ?l = _ |- _ => exact (L _ G Q) end).
    rewrite (got_fun _ _ _ G G'). reflexivity.
  Qed.

  Lemma opened_pending : forall h a n a', opened h a n -> starts_before a' a -> pending (h :: a').
  Proof.
    intros h a n a' (G & NC & _ & L & _ & _ & _ & N) (y & NY & E). subst a. apply pe_opening; auto.
    - rewrite app_length in L. destruct y; [congruence|]. cbn [List.length] in L. lia.
    - intros a2 [z ->]. apply N. exists (z ++ y). split; [destruct z; [auto|discriminate]|now rewrite app_assoc].
  Qed.
  Lemma before_pending : forall h a n b c, opened h a n -> (forall b', starts_before b' b -> going n (h :: a) b') ->
    starts_before c (h :: a ++ b) -> pending c.
  Proof.
    intros h a n b c O P (y & NY & E). destruct c as [|h' c]; [constructor|]. cbn [app] in E. injection E as <- E.
    destruct (app_split _ _ _ _ _ E) as [B|(z & -> & ->)]; [eapply opened_pending; eauto|].
    eapply pe_blocks; [exact O|]. intros b' [w ->]. apply P. exists (w ++ y). split; [destruct w; [auto|discriminate]|now rewrite app_assoc].
  Qed.
  Lemma ends_pending : forall c e c', ends c e -> starts_before c' c -> pending c'.
  Proof.
    intros c e c' H SB.
    destruct H as [o NG|h G K|h a G NK LA NW|h a n b l O P NE G Q|h a n b O P NE L NU|h a n b O P NE L U AS NC|h a n b O P NE L U AS FS].
    1-2: destruct SB as (y & NY & E); destruct c' as [|x c']; [constructor|]; destruct c'; [destruct y; [congruence|discriminate]|discriminate].
    - destruct SB as (y & NY & E). destruct c' as [|x c']; [constructor|]. cbn [app] in E. injection E as <- ->. apply pe_opening; auto.
      + rewrite app_length in LA. destruct y; [congruence|]. cbn [List.length] in LA. lia.
      + intros a' [z ->]. apply NW. exists (z ++ y). now rewrite app_assoc.
    - eapply before_pending; eauto.
    - eapply before_pending; eauto.
    - eapply before_pending; eauto.
    - eapply before_pending; eauto.
  Qed.

  Lemma pending_starts : forall c c', pending c -> starts c' c -> pending c'.
  Proof.
    intros c c' P SB. apply starts_cases in SB as [SB| ->]; [|exact P].
    destruct P as [|h a G NC L N|h a n b O P].
    - destruct SB as (y & NY & E). symmetry in E. apply app_eq_nil in E as [_ ->]. congruence.
    - destruct SB as (y & NY & E). destruct c' as [|x c']; [constructor|]. cbn [app] in E. injection E as <- ->. apply pe_opening; auto.
      + rewrite app_length in L. lia.
      + intros a' [z ->]. apply N. exists (z ++ y). now rewrite app_assoc.
    - eapply before_pending; eauto. intros b' B. apply P. apply starts_before_starts. exact B.
  Qed.
End Det.
