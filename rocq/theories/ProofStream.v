(** ProofStream: proofs about src/peer/stream.rs (C30-C32) *)
From Verif Require Import Base ModelStream SpecMessages SpecStream ProofBase ProofMessages.

(** Nothing is written. *)
Definition same_out (s s1 : stream) : Prop := st_sent s1 = st_sent s /\ st_wsched s1 = st_wsched s.
Lemma same_out_refl : forall s, same_out s s.
Proof. unfold same_out; auto. Qed.
Lemma same_out_trans : forall a b c, same_out a b -> same_out b c -> same_out a c.
Proof. unfold same_out. intros a b c [] []. split; congruence. Qed.

Lemma takeN_app : forall A (x y : list A) n, n = lenN x -> takeN n (x ++ y) = x.
Proof.
  intros A x y n ->. unfold takeN, lenN. destruct (N.leb_spec (N.of_nat (List.length (x ++ y))) (N.of_nat (List.length x))) as [L|L].
  - rewrite app_length in L. assert (E : List.length y = 0%nat) by lia. destruct y; [apply app_nil_r|discriminate].
  - rewrite Nat2N.id, firstn_app, firstn_all, Nat.sub_diag, firstn_O. apply app_nil_r.
Qed.
Lemma dropN_app : forall A (x y : list A) n, n = lenN x -> dropN n (x ++ y) = y.
Proof.
  intros A x y n ->. unfold dropN, lenN. destruct (N.leb_spec (N.of_nat (List.length (x ++ y))) (N.of_nat (List.length x))) as [L|L].
  - rewrite app_length in L. assert (E : List.length y = 0%nat) by lia. destruct y; [reflexivity|discriminate].
  - rewrite Nat2N.id, skipn_app, skipn_all, Nat.sub_diag. reflexivity.
Qed.
Lemma takeN_length : forall A n (l : list A), lenN (takeN n l) = N.min n (lenN l).
Proof.
  intros A n l. unfold takeN. destruct (N.leb_spec (lenN l) n); [lia|]. unfold lenN in *. rewrite firstn_length. lia.
Qed.
Lemma takeN_hd : forall n (x : N) l d, (0 < n)%N -> hd d (takeN n (x :: l)) = x.
Proof.
  intros n x l d H. unfold takeN. destruct (lenN (x :: l) <=? n)%N; [reflexivity|].
  destruct (N.to_nat n) eqn:E; [lia|reflexivity].
Qed.
Lemma takeN_drop : forall A n (l : list A), takeN n l ++ dropN n l = l.
Proof.
  intros A n l. unfold takeN, dropN. destruct (lenN l <=? n)%N; [apply app_nil_r|apply firstn_skipn].
Qed.
Lemma overlay_full : forall old got, (List.length old <= List.length got)%nat -> overlay old got = got.
Proof. intros. unfold overlay. rewrite skipn_all2 by auto. apply app_nil_r. Qed.

(** One tick of the environment without an error. *)
Lemma env_ok : forall k s, no_errors (S k) s ->
  exists s1 m, env_step s = (false, s1) /\ st_avail s1 = st_avail s ++ m /\ no_errors k s1 /\
    incoming s1 = incoming s /\ (forall j, buffered_after j s1 = buffered_after (S j) s) /\ same_out s s1 /\
    (m = [] \/ st_closed s = false).
Proof.
  intros k [a c sc ws se] H. unfold no_errors in H. cbn [st_sched] in H.
  destruct sc as [|t r].
  - unfold env_step. cbn [st_sched]. eexists _, []. rewrite app_nil_r. split; [reflexivity|].
    unfold no_errors, incoming, buffered_after, same_out. cbn [st_avail st_sched st_closed st_sent st_wsched].
    repeat split; rewrite ?firstn_nil; auto; intros j; now rewrite !firstn_nil.
  - cbn [firstn] in H. inversion H as [|? ? T F]; subst. unfold env_step. cbn [st_sched].
    destruct t as [ch| |]; [|congruence|].
    + destruct c; cbn [st_closed].
      * eexists _, []. rewrite app_nil_r. split; [reflexivity|].
        unfold no_errors, incoming, buffered_after, same_out. cbn [st_avail st_sched st_closed st_sent st_wsched firstn delivered app].
        auto 10.
      * eexists _, ch. split; [reflexivity|].
        unfold no_errors, incoming, buffered_after, same_out. cbn [st_avail st_sched st_closed st_sent st_wsched firstn delivered].
        rewrite <- !app_assoc. repeat split; auto. intros j. now rewrite <- app_assoc.
    + eexists _, []. rewrite app_nil_r. split; [reflexivity|].
      unfold no_errors, incoming, buffered_after, same_out. cbn [st_avail st_sched st_closed st_sent st_wsched firstn delivered].
      auto 10.
Qed.

Lemma peek_ok : forall k n s, no_errors (S k) s ->
  exists s1 m, snd (peek n s) = s1 /\ st_avail s1 = st_avail s ++ m /\ no_errors k s1 /\
    incoming s1 = incoming s /\ (forall j, buffered_after j s1 = buffered_after (S j) s) /\ same_out s s1 /\
    fst (peek n s) = match st_avail s1 with [] => if st_closed s1 then Some [] else None | _ => Some (takeN n (st_avail s1)) end.
Proof.
  intros k n s H. destruct (env_ok k s H) as (s1 & m & E & A & NE & I & B & O & _).
  exists s1, m. unfold peek. rewrite E. destruct (st_avail s1) eqn:Q; cbn [fst snd]; auto 10.
Qed.

Lemma read_ok : forall k n s x a, no_errors (S k) s -> x <> [] -> n = lenN x -> st_avail s = x ++ a ->
  exists s1 m, read n s = (Some x, s1) /\ st_avail s1 = a ++ m /\ no_errors k s1 /\
    incoming s = x ++ incoming s1 /\ (forall j, buffered_after (S j) s = x ++ buffered_after j s1) /\ same_out s s1.
Proof.
  intros k n s x a H NX LX E. destruct (env_ok k s H) as (s1 & m & Es & A & NE & I & B & O & _).
  rewrite E, <- app_assoc in A.
  assert (Q : read n s = (Some x, set_avail s1 (a ++ m))).
  { unfold read. rewrite Es. destruct (st_avail s1) as [|b l] eqn:Av.
    - destruct x; [congruence|discriminate].
    - rewrite A. rewrite takeN_app, dropN_app by auto. reflexivity. }
  exists (set_avail s1 (a ++ m)), m. split; [exact Q|]. split; [reflexivity|]. split; [exact NE|].
  split; [|split].
  - rewrite <- I. unfold incoming, set_avail. cbn [st_avail st_closed st_sched]. rewrite A, <- !app_assoc. reflexivity.
  - intros j. rewrite <- B. unfold buffered_after, set_avail. cbn [st_avail st_closed st_sched]. rewrite A, <- !app_assoc. reflexivity.
  - destruct O. split; auto.
Qed.

Lemma buffered_prefix : forall k s, exists m, buffered_after k s = st_avail s ++ m.
Proof. intros. unfold buffered_after. eauto. Qed.

Lemma prefix_by_length : forall A (a b c d : list A), a ++ b = c ++ d -> (List.length a <= List.length c)%nat -> exists m, c = a ++ m.
Proof.
  induction a as [|x a IH]; intros b c d E L; [eexists; reflexivity|]. destruct c as [|y c]; [cbn in L; lia|].
  cbn [app] in E. injection E as -> E. cbn in L. destruct (IH b c d E ltac:(lia)) as [m ->]. exists m. reflexivity.
Qed.

Lemma body_success : forall tries len s B more, len = lenN B -> (0 < tries)%nat -> no_errors (S tries) s ->
  buffered_after tries s = B ++ more ->
  exists s' m, read_body tries len s = (Some B, s') /\ incoming s = B ++ incoming s' /\
    B ++ st_avail s' = st_avail s ++ m /\ same_out s s'.
Proof.
  induction tries as [|t IH]; intros len s B more L T NE BU; [lia|]. cbn [read_body]. unfold peek_and_read.
  destruct (peek_ok (S t) len s NE) as (s1 & m & P1 & P2 & P3 & P4 & P5 & P6 & P7).
  destruct (peek len s) as [pk s1'] eqn:EP. cbn [fst snd] in P1, P7. subst s1' pk.
  rewrite <- P5 in BU.
  destruct (buffered_prefix t s1) as [m2 M2]. rewrite M2 in BU.
  destruct (N.leb_spec len (lenN (st_avail s1))) as [Q|Q].
  - (* enough *)
    assert (X : exists r, st_avail s1 = B ++ r).
    { symmetry in BU. eapply prefix_by_length; [exact BU|]. unfold lenN in *. lia. }
    destruct X as [r X].
    destruct B as [|b B].
    + (* empty body *)
      assert (L0 : len = 0%N) by (rewrite L; reflexivity). clear L. subst len.
      match goal with |- context [if ?c then _ else (None, s1)] => assert (C : c = true) end.
      { destruct (st_avail s1) as [|x l]; [destruct (st_closed s1); reflexivity|].
        rewrite takeN_length. rewrite N.min_0_l. reflexivity. }
      rewrite C. destruct (env_ok t s1 P3) as (s2 & m3 & E2 & A2 & _ & I2 & _ & O2 & _).
      unfold read. rewrite E2. destruct (st_avail s2) as [|x l] eqn:Av.
      * assert (Em : m = [] /\ st_avail s = [] /\ m3 = []).
        { rewrite P2 in A2. symmetry in A2. apply app_eq_nil in A2 as [A2 ->]. apply app_eq_nil in A2 as [-> ->]. auto. }
        destruct Em as (-> & Es & ->).
        exists s2, []. destruct (st_closed s2); cbn [lenN List.length N.of_nat N.eqb app]; (split; [reflexivity|]);
          (split; [congruence|]); (split; [rewrite Av, Es; reflexivity|]); eapply same_out_trans; eauto.
      * change (takeN 0 (x :: l)) with (@nil N). cbn [lenN List.length N.of_nat N.eqb app].
        eexists _, (m ++ m3). split; [reflexivity|].
        change (dropN 0 (x :: l)) with (x :: l). rewrite <- Av.
        assert (SA : set_avail s2 (st_avail s2) = s2) by (destruct s2; reflexivity). rewrite SA.
        split; [congruence|]. split; [rewrite Av, A2, P2, app_assoc; reflexivity|]. eapply same_out_trans; eauto.
    + assert (C : st_avail s1 <> []) by (rewrite X; discriminate).
      destruct (st_avail s1) as [|x l] eqn:Av1; [congruence|]. rewrite <- Av1.
      rewrite Av1, X, (takeN_app _ (b :: B) r len L), <- L, N.eqb_refl.
      destruct (read_ok t len s1 (b :: B) r P3 ltac:(discriminate) L ltac:(rewrite Av1; auto)) as (s2 & m3 & R1 & R2 & _ & R4 & _ & R6).
      rewrite R1, <- L, N.eqb_refl. exists s2, (m ++ m3). split; [reflexivity|]. split; [congruence|].
      split; [|eapply same_out_trans; eauto].
      rewrite R2, !app_assoc, <- X, <- P2. reflexivity.
  - (* not yet *)
    match goal with |- context [if ?c then _ else (None, s1)] => assert (C : c = false) end.
    { apply N.eqb_neq. destruct (st_avail s1) as [|x l].
      - cbn in Q. destruct (st_closed s1); cbn; lia.
      - rewrite takeN_length. lia. }
    rewrite C. destruct t as [|t].
    + exfalso. unfold buffered_after in M2. rewrite firstn_O in M2. cbn [delivered] in M2. apply app_inv_head in M2. subst m2.
      rewrite app_nil_r in BU. rewrite BU in Q. unfold lenN in *. rewrite app_length in Q. lia.
    + destruct (IH len s1 B more L ltac:(lia) P3) as (s' & m' & E & I & A & O).
      { rewrite M2. exact BU. }
      exists s', (m ++ m'). split; [exact E|]. split; [congruence|]. split; [|eapply same_out_trans; eauto].
      rewrite A, P2, app_assoc. reflexivity.
Qed.

Lemma body_failure : forall tries len s, (0 < len)%N -> no_errors tries s ->
  (lenN (buffered_after tries s) < len)%N ->
  exists s', read_body tries len s = (None, s') /\ incoming s' = incoming s /\ same_out s s' /\ exists m, st_avail s' = st_avail s ++ m.
Proof.
  induction tries as [|t IH]; intros len s L NE BU; cbn [read_body].
  - exists s. repeat split; auto. exists []. now rewrite app_nil_r.
  - unfold peek_and_read.
    destruct (peek_ok t len s NE) as (s1 & m & P1 & P2 & P3 & P4 & P5 & P6 & P7).
    destruct (peek len s) as [pk s1'] eqn:EP. cbn [fst snd] in P1, P7. subst s1' pk.
    rewrite <- P5 in BU. destruct (buffered_prefix t s1) as [m2 M2].
    assert (Q : (lenN (st_avail s1) < len)%N) by (rewrite M2 in BU; unfold lenN in *; rewrite app_length in BU; lia).
    match goal with |- context [if ?c then _ else (None, s1)] => assert (C : c = false) end.
    { apply N.eqb_neq. destruct (st_avail s1) as [|x l].
      - destruct (st_closed s1); cbn; lia.
      - rewrite takeN_length. lia. }
    rewrite C. destruct (IH len s1 L P3 BU) as (s' & E & I & O & m' & A).
    exists s'. split; [exact E|]. split; [congruence|]. split; [eapply same_out_trans; eauto|].
    exists (m ++ m'). rewrite A, P2, app_assoc. reflexivity.
Qed.

(** The start of read_stream when the buffer does not begin with a handshake. *)
Lemma skip_to_frame : forall k s b l, no_errors (S (S k)) s -> st_avail s = b :: l ->
  (b <> 19%N \/ lenN (buffered_after 2 s) < 68)%N ->
  exists s2 m, read_stream s = read_frame s2 /\ st_avail s2 = st_avail s ++ m /\ no_errors k s2 /\
    incoming s2 = incoming s /\ (forall j, buffered_after j s2 = buffered_after (S (S j)) s) /\ same_out s s2.
Proof.
  intros k s b l NE A H. unfold read_stream, has_messages.
  destruct (peek_ok (S k) 1 s NE) as (s1 & m1 & P1 & P2 & P3 & P4 & P5 & P6 & P7).
  destruct (peek 1 s) as [pk s1'] eqn:EP. cbn [fst snd] in P1, P7. subst s1' pk.
  rewrite A in P2. cbn [app] in P2. rewrite P2.
  assert (T : exists y z, takeN 1 (b :: l ++ m1) = y :: z).
  { destruct (takeN 1 (b :: l ++ m1)) as [|y z] eqn:Z; [|eauto]. exfalso.
    apply (f_equal lenN) in Z. rewrite takeN_length in Z. unfold lenN in Z. cbn [List.length] in Z. lia. }
  destruct T as (y & z & ->). cbn [negb].
  destruct (peek_ok k 68 s1 P3) as (s2 & m2 & Q1 & Q2 & Q3 & Q4 & Q5 & Q6 & Q7).
  destruct (peek 68 s1) as [pk s2'] eqn:EP2. cbn [fst snd] in Q1, Q7. subst s2' pk.
  rewrite P2 in Q2. cbn [app] in Q2. rewrite Q2.
  assert (C : ((lenN (takeN 68 (b :: (l ++ m1) ++ m2)) =? 68) && (hd 0 (takeN 68 (b :: (l ++ m1) ++ m2)) =? 19))%N = false).
  { rewrite takeN_hd by lia. destruct H as [H|H].
    - rewrite (proj2 (N.eqb_neq b 19) H). apply andb_false_r.
    - rewrite takeN_length. rewrite <- Q2.
      assert (B2 : buffered_after 0 s2 = buffered_after 2 s) by (rewrite Q5, P5; reflexivity).
      rewrite <- B2 in H. unfold buffered_after in H. rewrite firstn_O in H. cbn [delivered] in H. rewrite app_nil_r in H.
      rewrite (proj2 (N.eqb_neq _ 68)) by lia. reflexivity. }
  rewrite C. exists s2, (m1 ++ m2). split; [reflexivity|].
  split; [rewrite Q2, A; cbn [app]; now rewrite app_assoc|]. split; [auto|]. split; [congruence|].
  split; [intros j; rewrite Q5; apply P5|]. eapply same_out_trans; eauto.
Qed.

Lemma header_read : forall k s n id a, (n < 2 ^ 32)%N -> no_errors (S (S k)) s -> st_avail s = big_endian 4 n ++ [id] ++ a ->
  exists s2 m, st_avail s2 = a ++ m /\ no_errors k s2 /\
    incoming s = big_endian 4 n ++ [id] ++ incoming s2 /\
    (forall j, buffered_after (S (S j)) s = big_endian 4 n ++ [id] ++ buffered_after j s2) /\ same_out s s2 /\
    read_frame s = (if (n =? 0)%N then (Some ([], id, 0%N), s2)
                    else match read_body 39 (n - 1) s2 with
                         | (Some body, s3) => (Some (body, id, (n - 1)%N), s3)
                         | (None, s3) => (None, s3)
                         end).
Proof.
  intros k s n id a Ln NE A. unfold read_frame.
  assert (L4 : 4%N = lenN (big_endian 4 n)) by (unfold lenN; rewrite be_length; reflexivity).
  destruct (read_ok (S k) 4 s (big_endian 4 n) ([id] ++ a) NE) as (s1 & m1 & P1 & P2 & P3 & P4 & P5 & P6); auto.
  { intros Z. rewrite Z in L4. discriminate. }
  rewrite P1. rewrite overlay_full by (unfold lenN in L4; cbn [List.length]; lia). rewrite from_be_be by auto.
  destruct (read_ok k 1 s1 [id] (a ++ m1) P3 ltac:(discriminate) eq_refl) as (s2 & m2 & Q1 & Q2 & Q3 & Q4 & Q5 & Q6).
  { rewrite P2. rewrite <- app_assoc. reflexivity. }
  rewrite Q1. rewrite overlay_full by (cbn; lia). cbn [hd].
  exists s2, (m1 ++ m2). split; [rewrite Q2, app_assoc; reflexivity|]. split; [auto|].
  split; [rewrite P4, Q4; reflexivity|]. split; [intros j; rewrite P5, Q5; reflexivity|].
  split; [eapply same_out_trans; eauto|]. destruct (n =? 0)%N; [reflexivity|].
  destruct (read_body 39 (n - 1) s2) as [[body|] s3]; reflexivity.
Qed.

Lemma be_head : forall n, (n < 19 * 2 ^ 24)%N -> exists b t, big_endian 4 n = b :: t /\ b <> 19%N.
Proof.
  intros n H. cbn [big_endian app]. eexists _, _. split; [reflexivity|].
  rewrite !N.div_div by lia. change (256 * 256 * 256)%N with 16777216%N. change (2 ^ 24)%N with 16777216%N in H.
  pose proof (N.div_lt_upper_bound n 16777216 19 ltac:(lia) ltac:(lia)).
  pose proof (N.mod_le (n / 16777216) 256 ltac:(lia)). lia.
Qed.

Lemma frame_eq : forall id body, frame id body = big_endian 4 (lenN body + 1) ++ [id] ++ body.
Proof. intros. unfold frame, lenN. do 2 f_equal. lia. Qed.

Lemma c31 : forall s id body part more, short_body body -> no_errors 44 s ->
  st_avail s = big_endian 4 (lenN body + 1) ++ [id] ++ part ->
  buffered_after 43 s = frame id body ++ more ->
  exists s' m, read_stream s = (Some (body, id, lenN body), s') /\
    incoming s = frame id body ++ incoming s' /\
    frame id body ++ st_avail s' = st_avail s ++ m /\ st_sent s' = st_sent s.
Proof.
  intros s id body part more SB NE A BU. unfold short_body in SB.
  destruct (be_head (lenN body + 1) SB) as (b & t & Eb & Nb).
  assert (A' : st_avail s = b :: (t ++ [id] ++ part)) by (rewrite A, Eb; reflexivity).
  destruct (skip_to_frame 42 s b _ NE A' (or_introl Nb)) as (s2 & m & R & A2 & NE2 & I2 & B2 & O2).
  rewrite A, <- !app_assoc in A2.
  destruct (header_read 40 s2 (lenN body + 1) id (part ++ m) ltac:(change (2 ^ 24)%N with 16777216%N in SB; lia) NE2 A2)
    as (s4 & m4 & A4 & NE4 & I4 & B4 & O4 & R4).
  rewrite R, R4. rewrite (proj2 (N.eqb_neq (lenN body + 1) 0)) by lia. rewrite N.add_sub.
  destruct (body_success 39 (lenN body) s4 body more eq_refl ltac:(lia) NE4) as (s' & m' & RB & IB & AB & OB).
  { rewrite <- (B2 41%nat), (B4 39%nat), frame_eq, <- !app_assoc in BU.
    apply app_inv_head in BU. cbn [app] in BU. injection BU as BU. exact BU. }
  rewrite RB. exists s', (m ++ m4 ++ m'). split; [reflexivity|].
  rewrite frame_eq, <- I2, I4, IB, <- !app_assoc. split; [reflexivity|].
  split; [|destruct O2 as [-> _] || idtac].
  - rewrite AB, A4, A. repeat rewrite <- app_assoc. reflexivity.
  - destruct O4, OB, O2. congruence.
Qed.

Lemma c31_incomplete : forall s id body part, short_body body -> body <> [] -> no_errors 43 s ->
  st_avail s = big_endian 4 (lenN body + 1) ++ [id] ++ part ->
  (lenN (buffered_after 43 s) < lenN (frame id body))%N ->
  exists s' m, read_stream s = (None, s') /\
    incoming s = big_endian 4 (lenN body + 1) ++ [id] ++ incoming s' /\
    st_avail s' = part ++ m.
Proof.
  intros s id body part SB NB NE A BU. unfold short_body in SB.
  destruct (be_head (lenN body + 1) SB) as (b & t & Eb & Nb).
  assert (A' : st_avail s = b :: (t ++ [id] ++ part)) by (rewrite A, Eb; reflexivity).
  destruct (skip_to_frame 41 s b _ NE A' (or_introl Nb)) as (s2 & m & R & A2 & NE2 & I2 & B2 & O2).
  rewrite A, <- !app_assoc in A2.
  destruct (header_read 39 s2 (lenN body + 1) id (part ++ m) ltac:(change (2 ^ 24)%N with 16777216%N in SB; lia) NE2 A2)
    as (s4 & m4 & A4 & NE4 & I4 & B4 & O4 & R4).
  rewrite R, R4. rewrite (proj2 (N.eqb_neq (lenN body + 1) 0)) by lia. rewrite N.add_sub.
  destruct (body_failure 39 (lenN body) s4) as (s' & RB & IB & _ & m' & AB); auto.
  { unfold lenN. destruct body; [congruence|cbn; lia]. }
  { rewrite <- (B2 41%nat), (B4 39%nat), frame_eq in BU. unfold lenN in *. rewrite !app_length in BU. lia. }
  rewrite RB. exists s', (m ++ m4 ++ m'). split; [reflexivity|]. rewrite <- I2, I4, IB. split; [reflexivity|].
  rewrite AB, A4. repeat rewrite <- app_assoc. reflexivity.
Qed.

Lemma c30 : forall s id body rest, short_body body -> no_errors 44 s ->
  st_avail s = frame id body ++ rest ->
  exists s' m, read_stream s = (Some (body, id, lenN body), s') /\
    incoming s = frame id body ++ incoming s' /\ st_avail s' = rest ++ m.
Proof.
  intros s id body rest SB NE A. destruct (buffered_prefix 43 s) as [m0 M0].
  destruct (c31 s id body (body ++ rest) (rest ++ m0) SB NE) as (s' & m & R & I & AA & _).
  - rewrite A, frame_eq, <- !app_assoc. reflexivity.
  - rewrite M0, A, <- app_assoc. reflexivity.
  - exists s', m. split; [auto|]. split; [auto|]. rewrite A, <- app_assoc in AA. apply app_inv_head in AA. exact AA.
Qed.

(** ** Sequences *)

Definition sched_later (s s' : stream) : Prop := exists k, st_sched s' = skipn k (st_sched s).
Lemma later_refl : forall s, sched_later s s.
Proof. intros. exists 0%nat. reflexivity. Qed.
Lemma later_trans : forall a b c, sched_later a b -> sched_later b c -> sched_later a c.
Proof. intros a b c [j J] [k K]. exists (j + k)%nat. rewrite K, J, skipn_add. reflexivity. Qed.
Lemma env_later : forall s, sched_later s (snd (env_step s)).
Proof.
  intros s. unfold env_step. destruct (st_sched s) as [|[c| |] r] eqn:E; cbn [snd]; try (exists 1%nat; rewrite E; reflexivity).
Qed.
Lemma peek_later : forall n s, sched_later s (snd (peek n s)).
Proof.
  intros n s. unfold peek. pose proof (env_later s) as L. destruct (env_step s) as [f s1]. cbn [snd] in L.
  destruct f; [auto|]. destruct (st_avail s1); auto.
Qed.
Lemma read_later : forall n s, sched_later s (snd (read n s)).
Proof.
  intros n s. unfold read. pose proof (env_later s) as L. destruct (env_step s) as [f s1]. cbn [snd] in L.
  destruct f; [auto|]. destruct (st_avail s1); auto.
Qed.
Lemma body_later : forall t len s, sched_later s (snd (read_body t len s)).
Proof.
  induction t as [|t IH]; intros len s; cbn [read_body]; [apply later_refl|]. unfold peek_and_read.
  pose proof (peek_later len s) as L1. destruct (peek len s) as [pk s1]. cbn [snd] in L1.
  destruct (_ =? len)%N.
  - pose proof (read_later len s1) as L2. destruct (read len s1) as [rd s2]. cbn [snd] in L2.
    destruct (_ =? len)%N; [eapply later_trans; eauto|].
    eapply later_trans; [exact L1|]. eapply later_trans; [exact L2|]. apply IH.
  - eapply later_trans; [exact L1|]. apply IH.
Qed.
Lemma frame_later : forall s, sched_later s (snd (read_frame s)).
Proof.
  intros s. unfold read_frame. pose proof (read_later 4 s) as L1. destruct (read 4 s) as [r s1]. cbn [snd] in L1.
  destruct r as [got|]; [|auto]. pose proof (read_later 1 s1) as L2. destruct (read 1 s1) as [r2 s2]. cbn [snd] in L2.
  assert (L12 : sched_later s s2) by (eapply later_trans; eauto).
  destruct r2 as [got1|]; [|auto]. destruct (_ =? 0)%N; [auto|].
  match goal with |- context [read_body 39 ?l s2] => pose proof (body_later 39 l s2) as L3; destruct (read_body 39 l s2) as [r3 s3] end.
  cbn [snd] in L3. destruct r3; eapply later_trans; eauto.
Qed.
Lemma stream_later : forall s, sched_later s (snd (read_stream s)).
Proof.
  intros s. unfold read_stream, has_messages. pose proof (peek_later 1 s) as L1. destruct (peek 1 s) as [r s1]. cbn [snd] in L1.
  destruct (negb _); [auto|]. pose proof (peek_later 68 s1) as L2. destruct (peek 68 s1) as [r2 s2]. cbn [snd] in L2.
  assert (L12 : sched_later s s2) by (eapply later_trans; eauto).
  destruct r2 as [buf|]; [|eapply later_trans; [exact L12|apply frame_later]].
  destruct (_ && _); [|eapply later_trans; [exact L12|apply frame_later]].
  pose proof (read_later 68 s2) as L3. destruct (read 68 s2) as [r3 s3]. cbn [snd] in L3.
  destruct r3; eapply later_trans; eauto.
Qed.

Lemma later_no_errors : forall s s', sched_later s s' -> Forall (fun t => t <> TErr) (st_sched s) ->
  Forall (fun t => t <> TErr) (st_sched s').
Proof.
  intros s s' [k ->] H. rewrite <- (firstn_skipn k) in H. apply Forall_app in H. tauto.
Qed.
Lemma all_no_errors : forall k s, Forall (fun t => t <> TErr) (st_sched s) -> no_errors k s.
Proof. intros k s H. unfold no_errors. rewrite <- (firstn_skipn k) in H. apply Forall_app in H. tauto. Qed.

Lemma c30_sequence : forall ms s rest, Forall (fun t => t <> TErr) (st_sched s) ->
  Forall (fun m => short_body (snd m)) ms ->
  st_avail s = flat_map (fun m => frame (fst m) (snd m)) ms ++ rest ->
  exists s' m, read_messages (List.length ms) s = (map (fun m => Some (snd m, fst m, lenN (snd m))) ms, s') /\
    st_avail s' = rest ++ m /\ incoming s = flat_map (fun m => frame (fst m) (snd m)) ms ++ incoming s'.
Proof.
  induction ms as [|[id body] ms IH]; intros s rest NE F A; cbn [List.length read_messages flat_map map app fst snd] in *.
  - exists s, []. rewrite app_nil_r. auto.
  - inversion F as [|? ? SB F']; subst. cbn [snd] in SB. rewrite <- app_assoc in A.
    destruct (c30 s id body _ SB (all_no_errors 44 s NE) A) as (s1 & m1 & R & I & A1).
    rewrite R. rewrite <- app_assoc in A1.
    assert (NE1 : Forall (fun t => t <> TErr) (st_sched s1)).
    { eapply later_no_errors; [|exact NE]. pose proof (stream_later s) as L. rewrite R in L. exact L. }
    destruct (IH s1 (rest ++ m1) NE1 F' A1) as (s2 & m2 & R2 & A2 & I2).
    rewrite R2. exists s2, (m1 ++ m2). split; [reflexivity|]. split; [rewrite A2, app_assoc; reflexivity|].
    rewrite I, I2, <- app_assoc. reflexivity.
Qed.

Lemma c30_handshake : forall s h rest, no_errors 3 s -> List.length h = 68%nat -> hd 0%N h = 19%N ->
  st_avail s = h ++ rest ->
  exists s' m, read_stream s = (Some (h, 19%N, 68%N), s') /\ incoming s = h ++ incoming s' /\ st_avail s' = rest ++ m.
Proof.
  intros s h rest NE L H A. unfold read_stream, has_messages.
  destruct (peek_ok 2 1 s NE) as (s1 & m1 & P1 & P2 & P3 & P4 & P5 & P6 & P7).
  destruct (peek 1 s) as [pk s1'] eqn:EP. cbn [fst snd] in P1, P7. subst s1' pk.
  destruct h as [|b h]; [discriminate|]. cbn [hd] in H. subst b.
  rewrite A, <- app_assoc in P2. rewrite P2. cbn [app].
  destruct (takeN 1 (19%N :: h ++ rest ++ m1)) as [|y z] eqn:Z.
  { exfalso. apply (f_equal lenN) in Z. rewrite takeN_length in Z. unfold lenN in Z. cbn [List.length] in Z. lia. }
  cbn [negb].
  destruct (peek_ok 1 68 s1 P3) as (s2 & m2 & Q1 & Q2 & Q3 & Q4 & Q5 & Q6 & Q7).
  destruct (peek 68 s1) as [pk s2'] eqn:EP2. cbn [fst snd] in Q1, Q7. subst s2' pk.
  rewrite P2, <- !app_assoc in Q2. rewrite Q2. cbn [app].
  assert (L68 : 68%N = lenN (19%N :: h)) by (unfold lenN; rewrite L; reflexivity).
  change (19%N :: h ++ rest ++ m1 ++ m2) with ((19%N :: h) ++ rest ++ m1 ++ m2).
  rewrite (takeN_app _ (19%N :: h) _ 68 L68), <- L68. cbn [hd N.eqb Pos.eqb andb].
  destruct (read_ok 0 68 s2 (19%N :: h) (rest ++ m1 ++ m2) Q3 ltac:(discriminate) L68) as (s3 & m3 & R1 & R2 & _ & R4 & _ & R6).
  { rewrite Q2. reflexivity. }
  rewrite R1. rewrite overlay_full by lia. exists s3, (m1 ++ m2 ++ m3). split; [reflexivity|].
  split; [rewrite <- P4, <- Q4, R4; reflexivity|]. rewrite R2, <- !app_assoc. reflexivity.
Qed.

(** ** C32 *)

Lemma c32_keep_alive : forall s b rest, no_errors 4 s -> st_avail s = [0; 0; 0; 0]%N ++ b :: rest ->
  exists s' m, read_stream s = (Some ([], b, 0%N), s') /\ incoming s = [0; 0; 0; 0; b]%N ++ incoming s' /\
    st_avail s' = rest ++ m.
Proof.
  intros s b rest NE A.
  destruct (skip_to_frame 2 s 0%N ([0; 0; 0]%N ++ b :: rest) NE A) as (s2 & m & R & A2 & NE2 & I2 & _ & _).
  { left. discriminate. }
  rewrite A in A2.
  destruct (header_read 0 s2 0 b (rest ++ m) ltac:(lia) NE2) as (s4 & m4 & A4 & _ & I4 & _ & _ & R4).
  { rewrite A2. reflexivity. }
  rewrite R, R4. cbn [N.eqb]. exists s4, (m ++ m4). split; [reflexivity|]. split; [rewrite <- I2, I4; reflexivity|].
  rewrite A4, app_assoc. reflexivity.
Qed.

Lemma c32_split_handshake : forall s ih pid k, (5 <= k)%nat -> no_errors 43 s ->
  st_avail s = firstn k (handshake_layout ih pid) -> (lenN (buffered_after 2 s) < 68)%N ->
  (lenN (buffered_after 43 s) < 323119476)%N ->
  exists s', read_stream s = (None, s') /\ incoming s = [19; 66; 105; 116; 84]%N ++ incoming s'.
Proof.
  intros s ih pid k K NE A B2 B43.
  assert (A' : exists r, st_avail s = [19; 66; 105; 116; 84]%N ++ r).
  { rewrite A. unfold handshake_layout. do 5 (destruct k as [|k]; [lia|]).
    eexists. cbn [app firstn s2b map list_ascii_of_string String.list_ascii_of_string]. reflexivity. }
  destruct A' as [r A'].
  destruct (skip_to_frame 41 s 19%N ([66; 105; 116; 84]%N ++ r) NE A' (or_intror B2)) as (s2 & m & R & A2 & NE2 & I2 & BB2 & _).
  rewrite A' in A2.
  destruct (header_read 39 s2 323119476 84 (r ++ m) ltac:(lia) NE2) as (s4 & m4 & A4 & NE4 & I4 & B4 & _ & R4).
  { rewrite A2. reflexivity. }
  rewrite R, R4. change (323119476 =? 0)%N with false. cbv match.
  destruct (body_failure 39 (323119476 - 1) s4) as (s' & RB & IB & _); auto; [reflexivity| |].
  { rewrite <- (BB2 41%nat), (B4 39%nat) in B43. unfold lenN in *. rewrite !app_length in B43. cbn [List.length] in B43. lia. }
  rewrite RB. exists s'. split; [reflexivity|]. rewrite <- I2, I4, IB. reflexivity.
Qed.

Lemma c32_huge : forall s id body rest, (19 * 2 ^ 24 <= lenN body + 1 < 20 * 2 ^ 24)%N -> no_errors 3 s ->
  st_avail s = frame id body ++ rest ->
  exists s' m, read_stream s = (Some (firstn 68 (frame id body), 19%N, 68%N), s') /\
    st_avail s' = skipn 68 (frame id body) ++ rest ++ m.
Proof.
  intros s id body rest H NE A. change (2 ^ 24)%N with 16777216%N in H.
  assert (LF : (68 <= List.length (frame id body))%nat).
  { rewrite frame_eq, !app_length, be_length. unfold lenN in H. cbn [List.length]. lia. }
  destruct (c30_handshake s (firstn 68 (frame id body)) (skipn 68 (frame id body) ++ rest) NE) as (s' & m & R & _ & A').
  - rewrite firstn_length. lia.
  - rewrite frame_eq. cbn [big_endian app].
    change (hd 0%N (((lenN body + 1) / 256 / 256 / 256) mod 256 :: firstn 67 (((lenN body + 1) / 256 / 256) mod 256
      :: ((lenN body + 1) / 256) mod 256 :: (lenN body + 1) mod 256 :: id :: body))%N = 19%N).
    cbn [hd]. rewrite !N.div_div by lia. change (256 * (256 * 256))%N with 16777216%N.
    assert (E : ((lenN body + 1) / 16777216 = 19)%N).
    { symmetry. apply (N.div_unique _ _ _ (lenN body + 1 - 19 * 16777216)%N); lia. }
    rewrite E. reflexivity.
  - rewrite app_assoc, firstn_skipn. auto.
  - exists s', m. split; [auto|]. rewrite A', <- app_assoc. reflexivity.
Qed.
