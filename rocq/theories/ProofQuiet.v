(** ProofQuiet: what single attempts to read do in time (for C72) *)
From Verif Require Import Base ModelStream ModelClock SpecMessages SpecStream SpecPeer SpecVerdict SpecClock
  ProofBase ProofMessages ProofStream ProofClock.

(** ** Quiet connections *)
Lemma wait_quiet : forall c ms, quiet_for ms c -> (100 <= ms)%N ->
  wait c = (TData [], {| ck_now := ck_now c + 100; ck_events := ck_events c; ck_log := ck_log c ++ [TData []]; ck_stream := ck_stream c |}).
Proof.
  intros c ms (A & C & E) L. unfold wait. cbn zeta. rewrite A, C. change READ_TIMEOUT with 100%N.
  destruct (ck_events c) as [|[t k] r]; [reflexivity|]. apply Forall_inv in E. cbn [fst] in E.
  rewrite (proj2 (N.leb_gt t (ck_now c))) by lia. cbn [orb]. rewrite (proj2 (N.leb_gt t (ck_now c + 100))) by lia.
  unfold due. cbn [burst]. rewrite (proj2 (N.leb_gt t (ck_now c + 100))) by lia. destruct k; reflexivity.
Qed.
Lemma attempt_quiet : forall c ms, quiet_for ms c -> (100 <= ms)%N ->
  fst (read_stream_c c) = None /\ ck_now (snd (read_stream_c c)) = (ck_now c + 100)%N /\ quiet_for (ms - 100) (snd (read_stream_c c)).
Proof.
  intros c ms Q L. unfold read_stream_c, has_messages_c, peek_c. rewrite (wait_quiet c ms Q L). destruct Q as (A & C & E).
  unfold peek, env_step, with_sched. cbn [ck_stream st_sched st_avail st_closed]. rewrite A, C. cbn [app st_avail st_closed negb].
  cbn [fst snd set_stream ck_now]. split; [reflexivity|split; [reflexivity|]].
  unfold quiet_for. cbn [set_stream ck_stream ck_now ck_events st_avail st_closed]. split; [auto|split; [auto|]].
  eapply Forall_impl; [|exact E]. cbn. intros e. lia.
Qed.
Lemma listen_quiet : forall j c ms, quiet_for ms c -> (100 * N.of_nat j <= ms)%N ->
  fst (listen j c) = repeat None j /\ ck_now (snd (listen j c)) = (ck_now c + 100 * N.of_nat j)%N /\
  quiet_for (ms - 100 * N.of_nat j) (snd (listen j c)).
Proof.
  induction j as [|j IH]; intros c ms Q L.
  - cbn [listen fst snd repeat]. split; [reflexivity|]. split; [lia|]. replace (ms - 100 * N.of_nat 0)%N with ms by lia. exact Q.
  - cbn [listen]. destruct (attempt_quiet c ms Q) as (R & T & Q1); [lia|]. destruct (read_stream_c c) as [r c1]. cbn [fst snd] in *. subst r.
    destruct (IH c1 (ms - 100)%N Q1) as (R2 & T2 & Q2); [lia|]. destruct (listen j c1) as [rs c2]. cbn [fst snd repeat] in *.
    split; [now rewrite R2|]. split; [lia|]. replace (ms - 100 * N.of_nat (S j))%N with (ms - 100 - 100 * N.of_nat j)%N by lia. exact Q2.
Qed.

(** ** Connections with something to read *)
Definition later (now : N) (evs : list (N * tick)) : Prop := Forall (fun e => (now < fst e)%N) evs.
Definition holds (c : clocked) (now : N) (av : bytes) (evs : list (N * tick)) : Prop :=
  ck_now c = now /\ ck_events c = evs /\ st_avail (ck_stream c) = av /\ st_closed (ck_stream c) = false.

Lemma due_later : forall now evs, later now evs -> due now evs = (TData [], evs).
Proof.
  intros now [|[t k] r] L; [reflexivity|]. apply Forall_inv in L. cbn [fst] in L. unfold due. cbn [burst].
  rewrite (proj2 (N.leb_gt t now)) by lia. destruct k; reflexivity.
Qed.
Lemma wait_holds : forall c now av evs, holds c now av evs -> av <> [] -> later now evs ->
  fst (wait c) = TData [] /\ holds (snd (wait c)) now av evs /\ ck_stream (snd (wait c)) = ck_stream c.
Proof.
  intros c now av evs (T & E & A & C) NA L. unfold wait. cbn zeta. rewrite T, E, A, C.
  destruct av as [|x av]; [easy|]. destruct evs as [|[t k] r].
  - rewrite due_later by auto. cbn [fst snd ck_stream]. unfold holds. cbn. repeat split; auto.
  - rewrite orb_true_r. rewrite due_later by auto. cbn [fst snd ck_stream]. unfold holds. cbn. repeat split; auto.
Qed.
Lemma wait_arrives : forall c now t d r, holds c now [] ((t, TData d) :: r) -> (now < t <= now + 100)%N -> later t r ->
  fst (wait c) = TData d /\ holds (snd (wait c)) t [] r /\ ck_stream (snd (wait c)) = ck_stream c.
Proof.
  intros c now t d r (T & E & A & C) Lt L. unfold wait. cbn zeta. rewrite T, E, A, C. change READ_TIMEOUT with 100%N.
  rewrite (proj2 (N.leb_gt t now)) by lia. cbn [orb]. rewrite (proj2 (N.leb_le t (now + 100))) by lia.
  unfold due. cbn [burst]. rewrite N.leb_refl.
  assert (B : burst t r = ([], r)).
  { destruct r as [|[t' k] r]; [reflexivity|]. apply Forall_inv in L. cbn [fst] in L. cbn [burst].
    rewrite (proj2 (N.leb_gt t' t)) by lia. destruct k; reflexivity. }
  rewrite B, app_nil_r. cbn [fst snd ck_stream]. unfold holds. cbn. repeat split; auto.
Qed.
Lemma peek_arrives : forall n c now t d r, holds c now [] ((t, TData d) :: r) -> (now < t <= now + 100)%N -> later t r -> d <> [] ->
  fst (peek_c n c) = Some (takeN n d) /\ holds (snd (peek_c n c)) t d r.
Proof.
  intros n c now t d r H Lt L Nd. unfold peek_c. destruct (wait_arrives c now t d r H Lt L) as (K & (T & E & A & C) & S).
  destruct (wait c) as [k c1]. cbn [fst snd] in *. subst k. unfold peek, env_step, with_sched. cbn [st_sched st_avail st_closed].
  rewrite A, C. cbn [app st_avail st_closed]. destruct d as [|x d]; [easy|]. cbn [fst snd]. split; [reflexivity|].
  unfold holds. cbn. repeat split; auto.
Qed.
Lemma peek_holds : forall n c now av evs, holds c now av evs -> av <> [] -> later now evs ->
  fst (peek_c n c) = Some (takeN n av) /\ holds (snd (peek_c n c)) now av evs.
Proof.
  intros n c now av evs H Na L. unfold peek_c. destruct (wait_holds c now av evs H Na L) as (K & (T & E & A & C) & S).
  destruct (wait c) as [k c1]. cbn [fst snd] in *. subst k. unfold peek, env_step, with_sched. cbn [st_sched st_avail st_closed].
  rewrite A, C, app_nil_r. cbn [st_avail st_closed]. destruct av as [|x av]; [easy|]. cbn [fst snd]. split; [reflexivity|].
  unfold holds. cbn. repeat split; auto.
Qed.
Lemma read_holds : forall n c now av evs, holds c now av evs -> av <> [] -> later now evs ->
  fst (read_c n c) = Some (takeN n av) /\ holds (snd (read_c n c)) now (dropN n av) evs.
Proof.
  intros n c now av evs H Na L. unfold read_c. destruct (wait_holds c now av evs H Na L) as (K & (T & E & A & C) & S).
  destruct (wait c) as [k c1]. cbn [fst snd] in *. subst k. unfold read, env_step, with_sched. cbn [st_sched st_avail st_closed].
  rewrite A, C, app_nil_r. cbn [st_avail st_closed]. destruct av as [|x av]; [easy|]. cbn [fst snd]. split; [reflexivity|].
  unfold holds. cbn. repeat split; auto.
Qed.

(** A handshake, or a message with a body, that comes as a whole within the next 100 ms is what the attempt brings. *)
Lemma handshake_arrives : forall c now t h r, holds c now [] ((t, TData h) :: r) -> (now < t <= now + 100)%N -> later t r ->
  List.length h = 68%nat -> hd 0%N h = 19%N ->
  fst (read_stream_c c) = Some (h, 19%N, 68%N) /\ holds (snd (read_stream_c c)) t [] r.
Proof.
  intros c now t h r H Lt L Lh Hh. assert (Nh : h <> []) by (now intros ->). assert (LN : lenN h = 68%N) by (unfold lenN; rewrite Lh; reflexivity).
  assert (T68 : takeN 68 h = h) by (unfold takeN; now rewrite LN).
  unfold read_stream_c, has_messages_c. destruct (peek_arrives 1 c now t h r H Lt L Nh) as (P & H1).
  destruct (peek_c 1 c) as [pk c1]. cbn [fst snd] in *. subst pk.
  assert (T1 : exists x y, takeN 1 h = x :: y). { unfold takeN. rewrite LN. cbn. destruct h as [|x h]; [easy|]. exists x, []. reflexivity. }
  destruct T1 as (x & y & ->). cbn [negb].
  destruct (peek_holds 68 c1 t h r H1 Nh L) as (P2 & H2). destruct (peek_c 68 c1) as [pk c2]. cbn [fst snd] in *. subst pk.
  rewrite T68, LN, Hh. cbn [N.eqb Pos.eqb andb].
  destruct (read_holds 68 c2 t h r H2 Nh L) as (P3 & H3). destruct (read_c 68 c2) as [rd c3]. cbn [fst snd] in *. subst rd.
  rewrite T68. cbn [fst snd]. split.
  - f_equal. f_equal. f_equal. unfold overlay. rewrite skipn_all. apply app_nil_r.
  - replace (dropN 68 h) with (@nil N) in H3; [exact H3|]. unfold dropN. now rewrite LN.
Qed.
Lemma takeN_1 : forall (l : bytes), l <> [] -> exists x y, takeN 1 l = x :: y.
Proof.
  intros [|x l] N; [easy|]. unfold takeN. destruct (_ <=? _)%N; [exists x, l; reflexivity|exists x, []; reflexivity].
Qed.
Definition small (body : bytes) : Prop := (N.of_nat (List.length body) + 1 < 2 ^ 24)%N.
Lemma frame_read : forall c now id body rest r, holds c now (frame id body ++ rest) r -> later now r -> (id < 256)%N -> small body ->
  body ++ rest <> [] ->
  exists len, fst (read_frame_c c) = Some (body, id, len) /\ holds (snd (read_frame_c c)) now rest r.
Proof.
  intros c now id body rest r H L Lid Lb Nb. unfold frame in H. rewrite <- !app_assoc in H. unfold read_frame_c.
  set (be := big_endian 4 (N.of_nat (1 + List.length body))) in *.
  assert (Lbe : 4%N = lenN be) by reflexivity.
  destruct (read_holds 4 c now _ r H) as (P & H1); [discriminate|auto|]. destruct (read_c 4 c) as [rd c1]. cbn [fst snd] in *. subst rd.
  rewrite takeN_app by exact Lbe. rewrite dropN_app in H1 by exact Lbe.
  destruct (read_holds 1 c1 now _ r H1) as (P & H2); [discriminate|auto|]. destruct (read_c 1 c1) as [rd c2]. cbn [fst snd] in *. subst rd.
  rewrite takeN_app by reflexivity. rewrite dropN_app in H2 by reflexivity. cbn [overlay app hd].
  assert (V : from_be (overlay [0; 0; 0; 0]%N be) = N.of_nat (1 + List.length body)).
  { change (overlay [0; 0; 0; 0]%N be) with be. apply from_be_be. unfold small in Lb. lia. }
  rewrite V. rewrite (proj2 (N.eqb_neq (N.of_nat (1 + List.length body)) 0)) by lia.
  replace (N.of_nat (1 + List.length body) - 1)%N with (lenN body) by (unfold lenN; lia).
  cbn [read_body_c]. unfold peek_and_read_c.
  destruct (peek_holds (lenN body) c2 now _ r H2 Nb L) as (P & H3). destruct (peek_c (lenN body) c2) as [pk c3]. cbn [fst snd] in *. subst pk.
  rewrite takeN_app by reflexivity. rewrite N.eqb_refl.
  destruct (read_holds (lenN body) c3 now _ r H3 Nb L) as (P & H4). destruct (read_c (lenN body) c3) as [rd c4]. cbn [fst snd] in *. subst rd.
  rewrite takeN_app by reflexivity. rewrite dropN_app in H4 by reflexivity. rewrite N.eqb_refl. cbn [fst snd].
  eexists. split; [reflexivity|exact H4].
Qed.
Lemma frame_head : forall id body rest, small body -> hd 0%N (takeN 68 (frame id body ++ rest)) = 0%N.
Proof.
  intros id body rest S. unfold small in S. unfold frame. set (k := N.of_nat (1 + List.length body)).
  assert (E : exists x, big_endian 4 k = 0%N :: x).
  { cbn [big_endian app]. eexists. f_equal. assert (H : (k / 256 / 256 / 256 = 0)%N); [|rewrite H; reflexivity].
    rewrite !N.div_div by lia. apply N.div_small. subst k. lia. }
  destruct E as (x & ->). cbn [app]. unfold takeN. destruct (_ <=? _)%N; [reflexivity|].
  change (N.to_nat 68) with 68%nat. reflexivity.
Qed.
(** The rest of an attempt, once something is there to be read. *)
Definition attempt_rest (c : clocked) : option (bytes * N * N) * clocked :=
  let (r, c2) := peek_c 68 c in
  match r with
  | Some buffer =>
    if (lenN buffer =? 68)%N && (hd 0%N buffer =? 19)%N then
      let (r, c3) := read_c 68 c2 in
      match r with
      | None => (None, c3)
      | Some got => (Some (overlay buffer got, 19%N, 68%N), c3)
      end
    else read_frame_c c2
  | None => read_frame_c c2
  end.
Lemma rest_frame : forall c now id body rest r, holds c now (frame id body ++ rest) r -> later now r -> (id < 256)%N -> small body ->
  body ++ rest <> [] ->
  exists len, fst (attempt_rest c) = Some (body, id, len) /\ holds (snd (attempt_rest c)) now rest r.
Proof.
  intros c now id body rest r H L Lid Lb Nb. unfold attempt_rest.
  destruct (peek_holds 68 c now _ r H) as (P & H1); [discriminate|auto|]. destruct (peek_c 68 c) as [pk c1]. cbn [fst snd] in *. subst pk.
  rewrite frame_head by auto. change (0 =? 19)%N with false. rewrite andb_false_r. now apply frame_read.
Qed.
Lemma attempt_waiting : forall c now id body rest r, holds c now (frame id body ++ rest) r -> later now r -> (id < 256)%N -> small body ->
  body ++ rest <> [] ->
  exists len, fst (read_stream_c c) = Some (body, id, len) /\ holds (snd (read_stream_c c)) now rest r.
Proof.
  intros c now id body rest r H L Lid Lb Nb.
  assert (F : frame id body ++ rest <> []) by discriminate.
  unfold read_stream_c, has_messages_c. destruct (peek_holds 1 c now _ r H F L) as (P & H1).
  destruct (peek_c 1 c) as [pk c1]. cbn [fst snd] in *. subst pk. destruct (takeN_1 _ F) as (x & y & ->). cbn [negb].
  exact (rest_frame c1 now id body rest r H1 L Lid Lb Nb).
Qed.
Lemma attempt_arrives : forall c now t id body rest r, holds c now [] ((t, TData (frame id body ++ rest)) :: r) ->
  (now < t <= now + 100)%N -> later t r -> (id < 256)%N -> small body -> body ++ rest <> [] ->
  exists len, fst (read_stream_c c) = Some (body, id, len) /\ holds (snd (read_stream_c c)) t rest r.
Proof.
  intros c now t id body rest r H Lt L Lid Lb Nb.
  assert (F : frame id body ++ rest <> []) by discriminate.
  unfold read_stream_c, has_messages_c. destruct (peek_arrives 1 c now t _ r H Lt L F) as (P & H1).
  destruct (peek_c 1 c) as [pk c1]. cbn [fst snd] in *. subst pk. destruct (takeN_1 _ F) as (x & y & ->). cbn [negb].
  exact (rest_frame c1 t id body rest r H1 L Lid Lb Nb).
Qed.
