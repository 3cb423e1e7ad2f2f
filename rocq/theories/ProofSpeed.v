(** ProofSpeed: proofs for PropSpeed *)
From Coq Require Import Permutation Lia.
From Verif Require Import Base Utf8 ModelBencode ModelMessages ModelTorrent ModelWriter ModelTracker ModelStream ModelPeer ModelLive ModelClock ModelTimed
  ModelActors ModelCache ModelMain ProofBase SpecTorrent SpecWriter ProofWriter SpecPieces ProofPieces SpecPeer ProofPeer SpecSystem ProofSystem SpecMain ProofMain
  SpecWhole ProofWhole SpecForever ProofForever SpecSession ProofSession SpecSeeds ProofSeeds ProofDisk SpecPace ProofPace SpecLive SpecTimed ProofFar SpecSpeed.

Definition some_of (f : N -> bool) (x : sys) : list N := filter f (received x).

Lemma handle_ready_idx : forall p found shuffle a m a' es, handle p found shuffle a m = Ret (a', es) ->
  map rd_idx (readies_of es) = [] \/ map rd_idx (readies_of es) = success_of m.
Proof.
  intros p found shuffle a m a' es H. pose proof (handle_ready_count _ _ _ _ _ _ _ H) as L.
  destruct m as [ep|ep piece idx|ep idx]; cbn [success_of List.length] in L; [left; destruct (readies_of es); [auto|cbn in L; lia]| |left; destruct (readies_of es); [auto|cbn in L; lia]].
  cbn [handle success_of] in *. unfold handle_success in H. apply obind_ret in H as (i & _ & H). apply obind_ret in H as (fs & _ & H). apply obind_ret in H as (q & _ & H).
  right. destruct (pool_pop q) as [[n|] q1]; injection H as <- <-; reflexivity.
Qed.
Lemma success_perm : forall k l m, nth_error l k = Some m -> Permutation (flat_map success_of l) (success_of m ++ flat_map success_of (remove_nth k l)).
Proof.
  intros k l m H. change (success_of m ++ flat_map success_of (remove_nth k l)) with (flat_map success_of (m :: remove_nth k l)).
  apply Permutation_flat_map. apply remove_perm. exact H.
Qed.

(** What one step does to what has been received. *)
Lemma received_moves : forall sha1 p cwd x o, let x' := sys_step sha1 p cwd x o in
  (exists gone, Permutation (received x) (gone ++ received x')) \/
  (exists k net pid fuel r piece, o = OFinish k net pid fuel /\ nth_error (sy_working x) k = Some r /\
     download sha1 p fuel net pid (rq_endpoint r) (rq_info r) (rq_idx r) = Ret (Ok piece) /\
     Permutation (received x') (rq_idx r :: received x) /\ S (List.length (sy_working x')) = List.length (sy_working x)).
Proof.
  intros sha1 p cwd x o. cbn zeta. unfold received, completed. fold success_of.
  assert (SAME : forall l : list N, exists gone, Permutation l (gone ++ l)) by (intros l; exists []; reflexivity).
  destruct o as [ep|k found shuffle| |k net pid fuel|]; cbn [sys_step].
  - left. cbn [sy_mail sy_trace]. rewrite flat_map_app. cbn [flat_map success_of app]. rewrite app_nil_r. apply SAME.
  - left. destruct (sy_dead x); [apply SAME|]. destruct (nth_error (sy_mail x) k) as [m|] eqn:Hm; [|apply SAME].
    pose proof (success_perm _ _ _ Hm) as S.
    destruct (handle p found shuffle (sy_actor x) m) as [[a es]| |] eqn:EH; cbn [sy_mail sy_trace]; [| |apply SAME].
    + apply handle_ready_idx in EH. rewrite trace_app_writer, map_app.
      destruct EH as [E|E]; rewrite E.
      * exists (success_of m). rewrite app_nil_r. rewrite S, <- app_assoc. reflexivity.
      * exists []. cbn [app]. rewrite S, <- app_assoc, (Permutation_app_comm (success_of m)), <- app_assoc. reflexivity.
    + exists (success_of m). rewrite S, <- app_assoc. reflexivity.
  - left. destruct (sy_queue x); [apply SAME|]. destruct (List.length (sy_working x) <? sy_workers x)%nat; cbn [sy_mail sy_trace]; apply SAME.
  - destruct (nth_error (sy_working x) k) as [r|] eqn:Hr; [|left; apply SAME].
    pose proof (Permutation_length (remove_perm _ _ _ _ Hr)) as L. cbn [List.length] in L.
    destruct (download sha1 p fuel net pid (rq_endpoint r) (rq_info r) (rq_idx r)) as [[piece|e]| |] eqn:ED; cbn [sy_mail sy_trace sy_working]; rewrite ?flat_map_app; cbn [flat_map success_of].
    + right. exists k, net, pid, fuel, r, piece. split; [reflexivity|]. split; [exact Hr|]. split; [exact ED|]. split; [|lia].
      rewrite app_nil_r, <- app_assoc. symmetry. apply Permutation_middle.
    + left. rewrite !app_nil_r. apply SAME.
    + left. rewrite !app_nil_r. apply SAME.
    + left. apply SAME.
  - left. destruct (sy_writer_dead x); [apply SAME|]. destruct (sy_writer x); [apply SAME|].
    destruct (write _ _ _ _ _ _ _); cbn [sy_mail sy_trace]; apply SAME.
Qed.

Section Afar.
  Variable sha1 : bytes -> bytes.
  Variable p : profile.
  Variable cwd : loc.
  Variable d : fs.
  Variable ops : nat -> pop.
  Variable t : nat.
  Variable time : nat -> N.
  Variable files : list file.
  Variable T : bytes.
  Variable rtt : N.
  Hypothesis hash20 : forall b, List.length (sha1 b) = 20%nat.
  Hypothesis ok : forall n, pop_ok (ops n).
  Notation at_ := (torrent_at sha1 p cwd d ops t).
  Hypothesis shape : forall n x i, at_ n = Some x -> ta_info (sy_actor x) = Some i -> describes sha1 i files T /\ well_shaped i T.
  Hypothesis afar : from_afar sha1 p cwd d ops t time rtt T.
  Hypothesis ticks : clock time.

  (** One step of the process, as the torrent sees it. *)
  Lemma at_moves : forall n x y, at_ n = Some x -> at_ (S n) = Some y ->
    (exists gone, Permutation (received x) (gone ++ received y)) \/
    (exists k net pid fuel r piece, ops n = PFinish t k net pid fuel /\ nth_error (sy_working x) k = Some r /\
       download sha1 p fuel net pid (rq_endpoint r) (rq_info r) (rq_idx r) = Ret (Ok piece) /\
       Permutation (received y) (rq_idx r :: received x) /\ S (List.length (sy_working y)) = List.length (sy_working x)).
  Proof.
    intros n x y H HY. pose proof HY as HY'. unfold torrent_at in HY'. rewrite state_S in HY'.
    destruct (finish_cases _ _ _ _ _ _ _ (ok n) HY') as [E|[(z & D & o' & E & O' & EX & NF)|(h & ->)]]; unfold torrent_at in H.
    - rewrite H in E. injection E as <-. left. exists []. reflexivity.
    - rewrite H in E. injection E as <-. pose proof (received_moves sha1 p cwd (set_disk D x) o') as M. cbn zeta in M. rewrite <- EX in M.
      change (received (set_disk D x)) with (received x) in M. change (sy_working (set_disk D x)) with (sy_working x) in M.
      destruct M as [M|(k & net & pid & fuel & r & piece & -> & R)]; [auto|]. right. exists k, net, pid, fuel, r, piece. split; [apply NF; reflexivity|exact R].
    - left. exists (received x). cbn. rewrite app_nil_r. reflexivity.
  Qed.

  Lemma received_info : forall n x idx, at_ n = Some x -> In idx (received x) -> exists i, ta_info (sy_actor x) = Some i.
  Proof.
    intros n x idx H I.
    destruct (c58_alone _ _ _ _ _ _ (state_started sha1 p cwd d ops n ok) t x H) as (h & s0 & _ & R0 & (A1 & A2 & A3 & A4 & A5 & A6 & A7)).
    pose proof (c39 _ _ _ _ _ _ R0) as C3. rewrite <- A1. destruct (ta_info (sy_actor s0)) as [i|]; [eauto|]. exfalso.
    destruct C3 as (_ & E & EC). unfold in_flight in E. apply app_eq_nil in E as [_ E]. apply app_eq_nil in E as [_ E].
    assert (Q : received s0 = received x) by (unfold received, completed; congruence). rewrite <- Q in I. unfold received in I. rewrite EC, app_nil_r in I.
    apply in_flat_map in I as (m & J & X). assert (Y : In idx (flat_map answer_for (sy_mail s0))); [|rewrite E in Y; exact Y].
    apply in_flat_map. exists m. split; [exact J|]. destruct m; auto. destruct X.
  Qed.

  (** A piece that is received between two moments was downloaded between them, and begun after the first if it was not being downloaded then. *)
  Lemma began_after : forall n x idx, at_ n = Some x -> ~ In idx (map rq_idx (sy_working x)) -> ~ In idx (received x) ->
    forall m y i, (n <= m)%nat -> at_ m = Some y -> In idx (received y) -> ta_info (sy_actor y) = Some i -> ((idx + 1) * i_piece_length i <= lenN T)%N ->
    (time n + (100 + rtt * (1 + piece_count (i_piece_length i) 16384)) <= time m)%N.
  Proof.
    intros n x idx H NW NR m y i L. revert y. induction L as [|m L IH]; intros y HY IY EI WH; [rewrite H in HY; injection HY as <-; contradiction|].
    destruct (stays sha1 p cwd d ops t ok n m x H L) as (w & HW & _).
    assert (TM : (time m <= time (S m))%N) by apply ticks.
    assert (IN : forall i', ta_info (sy_actor w) = Some i' -> i' = i).
    { intros i' E'. destruct (stays sha1 p cwd d ops t ok m (S m) w HW ltac:(lia)) as (y' & HY' & _ & _ & G). rewrite HY in HY'. injection HY' as <-. specialize (G i' E'). congruence. }
    destruct (in_dec N.eq_dec idx (received w)) as [IW|IW].
    - destruct (received_info m w idx HW IW) as (i' & E'). pose proof (IN i' E'). subst i'. specialize (IH w HW IW E' WH). lia.
    - destruct (at_moves m w y HW HY) as [[gone G]|(k & net & pid & fuel & r & piece & EO & Hr & ED & PM & _)].
      { exfalso. apply IW. eapply Permutation_in; [symmetry; exact G|]. apply in_or_app. auto. }
      apply (Permutation_in _ PM) in IY as [IY|IY]; [|contradiction].
      destruct (afar m k net pid fuel w r EO HW Hr) as (b & ra & v & res & te & LB & BU & LR & (IH1 & NE & HP) & LP & LF & ED' & ET & LE).
      assert (LNB : (n <= b)%nat).
      { destruct (Nat.le_gt_cases n b) as [G|G]; [exact G|]. exfalso. apply NW. rewrite <- IY. apply (BU n x); [lia|exact H]. }
      pose proof (time_mono time ticks n b LNB) as TB.
      rewrite ED in ED'. injection ED' as <-.
      destruct (working_known _ _ _ _ _ _ _ _ _ _ (state_started sha1 p cwd d ops m ok) HW Hr) as (i' & nn & EI' & _). pose proof (IN i' EI'). subst i'.
      destruct (shape m w i HW EI') as [DE WS].
      destruct (served_worker _ _ _ _ _ _ _ _ _ _ _ _ _ hash20 (state_started sha1 p cwd d ops m ok) HW Hr EI' DE) as (RI & LI & EP).
      rewrite RI in *. rewrite IY in *.
      pose proof DE as (_ & _ & _ & PP & _ & HS). destruct WS as (AL & P32 & O & C32).
      specialize (HS idx LI). specialize (HP idx LI). pose proof (piece_length_of T _ _ PP LI) as PL. rewrite <- HP in *.
      assert (LW : lenN (sd_piece v idx) = i_piece_length i) by (rewrite PL; lia).
      assert (LS : (20 * N.to_nat idx + 20 <= List.length (i_pieces i))%nat).
      { pose proof (hash20 (sd_piece v idx)) as LL. rewrite <- HS, firstn_length, skipn_length in LL. lia. }
      assert (R : (time b + 100 + ra * (1 + piece_count (lenN (sd_piece v idx)) 16384) <= te)%N).
      { apply (c86_rate sha1 p fuel (time b) ra v pid (rq_endpoint r) i idx (lenN T)) with (got := piece); auto; try lia.
        - exact (describes_total _ p _ _ _ DE).
        - destruct AL as [AL|AL]; [auto|]. right. destruct (count_bounds (lenN T) (i_piece_length i) PP) as (B1 & B2 & B3). unfold piece_count in *. nia.
        - rewrite LW. exact LF. }
      rewrite LW in R. assert (rtt * (1 + piece_count (i_piece_length i) 16384) <= ra * (1 + piece_count (i_piece_length i) 16384))%N by (apply N.mul_le_mono_r; exact LR).
      lia.
  Qed.

  (** The first moment at which more than [c] of the pieces have been received that [f] chooses. *)
  Lemma first_more_of : forall f c n x, at_ n = Some x -> (List.length (some_of f x) <= c)%nat -> forall m y, (n <= m)%nat -> at_ m = Some y ->
    (c < List.length (some_of f y))%nat ->
    exists m' z, (n <= m' <= m)%nat /\ at_ m' = Some z /\ List.length (some_of f z) = S c /\ (List.length (sy_working z) <= 4)%nat.
  Proof.
    intros f c n x H C m y L. revert y. induction L as [|m L IH]; intros y HY CY; [rewrite H in HY; injection HY as <-; lia|].
    destruct (stays sha1 p cwd d ops t ok n m x H L) as (w & HW & _).
    destruct (Nat.lt_ge_cases c (List.length (some_of f w))) as [G|G].
    { destruct (IH w HW G) as (m' & z & LL & R). exists m', z. split; [lia|auto]. }
    destruct (received_nodup sha1 p cwd d ops t time ok m w HW) as [_ W5].
    exists (S m), y. split; [lia|]. split; [auto|]. unfold some_of in *.
    destruct (at_moves m w y HW HY) as [[gone GP]|(k & net & pid & fuel & r & piece & EO & Hr & ED & PM & WL)].
    - apply (filter_perm _ f), Permutation_length in GP. rewrite filter_app, app_length in GP. lia.
    - apply (filter_perm _ f), Permutation_length in PM. cbn [filter] in PM. destruct (f (rq_idx r)); cbn [List.length] in PM; lia.
  Qed.

  Lemma five_whole : forall n x, at_ n = Some x -> sy_working x = [] -> received x = [] ->
    forall i k m y, (n <= m)%nat -> at_ m = Some y -> ta_info (sy_actor y) = Some i ->
    (5 * k < List.length (whole_pieces T (i_piece_length i) (received y)))%nat ->
    (time n + N.of_nat (S k) * (100 + rtt * (1 + piece_count (i_piece_length i) 16384)) <= time m)%N.
  Proof.
    intros n x H W R i. set (least := (100 + rtt * (1 + piece_count (i_piece_length i) 16384))%N).
    set (f := (fun idx => (idx + 1) * i_piece_length i <=? lenN T)%N).
    assert (WP : forall y, whole_pieces T (i_piece_length i) (received y) = some_of f y) by reflexivity.
    induction k as [|k IH]; intros m y L HY EI C; rewrite WP in C.
    - destruct (some_of f y) as [|idx l] eqn:E; [cbn in C; lia|].
      assert (I : In idx (some_of f y)) by (rewrite E; left; reflexivity). apply filter_In in I as [I FI]. apply N.leb_le in FI.
      pose proof (began_after n x idx H) as G. rewrite W, R in G. specialize (G (fun X => X) (fun X => X) m y i L HY I EI FI). fold least in G. lia.
    - destruct (first_more_of f (5 * k)%nat n x H) with (m := m) (y := y) as (m' & z & LL & HZ & CZ & WZ); auto; [unfold some_of; rewrite R; cbn; lia|lia|].
      assert (EZ : ta_info (sy_actor z) = Some i).
      { assert (exists idx, In idx (some_of f z)) as (idx & I) by (destruct (some_of f z) as [|idx l]; [discriminate|exists idx; left; reflexivity]).
        apply filter_In in I as [I _]. destruct (received_info m' z idx HZ I) as (i' & E').
        destruct (stays sha1 p cwd d ops t ok m' m z HZ ltac:(lia)) as (y' & HY' & _ & _ & G). rewrite HY in HY'. injection HY' as <-. specialize (G i' E'). congruence. }
      specialize (IH m' z ltac:(lia) HZ EZ ltac:(rewrite WP; lia)). destruct (received_nodup sha1 p cwd d ops t time ok m y HY) as [ND _].
      destruct (new_one sha1 ops t time ok (some_of f y) (map rq_idx (sy_working z) ++ some_of f z)) as (idx & I & NI); [apply NoDup_filter; exact ND|rewrite app_length, map_length; lia|].
      apply filter_In in I as [I FI]. assert (FI' := FI). apply N.leb_le in FI'.
      pose proof (began_after m' z idx HZ) as G.
      assert (time m' + least <= time m)%N; [|lia]. apply (G) with (y := y); auto; try lia; intros X; apply NI; apply in_or_app; auto.
      right. apply filter_In. auto.
  Qed.

  Lemma c88_limit : forall n x, at_ n = Some x -> sy_working x = [] -> received x = [] ->
    forall m y i, (n <= m)%nat -> at_ m = Some y -> ta_info (sy_actor y) = Some i ->
    (time n + piece_count (lenN (whole_pieces T (i_piece_length i) (completed y))) 5 * (100 + rtt * (1 + piece_count (i_piece_length i) 16384)) <= time m)%N.
  Proof.
    intros n x H W R m y i L HY EI. set (c := whole_pieces T (i_piece_length i) (completed y)).
    assert (LR : (List.length c <= List.length (whole_pieces T (i_piece_length i) (received y)))%nat)
      by (unfold c, received, whole_pieces; rewrite filter_app, app_length; lia).
    destruct (N.eq_dec (lenN c) 0) as [E|E].
    - rewrite E. change (piece_count 0 5) with 0%N. pose proof (time_mono time ticks n m L). lia.
    - pose proof (five_whole n x H W R i (N.to_nat ((lenN c - 1) / 5)) m y L HY EI) as G. unfold lenN in *. specialize (G ltac:(lia)).
      unfold piece_count at 1. replace ((N.of_nat (List.length c) + 5 - 1) / 5)%N with (N.of_nat (S (N.to_nat ((N.of_nat (List.length c) - 1) / 5)))) by lia.
      exact G.
  Qed.

  Lemma c88_rate : forall n x, at_ n = Some x -> sy_working x = [] -> received x = [] ->
    forall m y i, (n <= m)%nat -> at_ m = Some y -> ta_info (sy_actor y) = Some i ->
    (lenN (whole_pieces T (i_piece_length i) (completed y)) * i_piece_length i * rtt <= 5 * 16384 * (time m - time n))%N.
  Proof.
    intros n x H W R m y i L HY EI. pose proof (c88_limit n x H W R m y i L HY EI) as G.
    set (w := lenN (whole_pieces T (i_piece_length i) (completed y))) in *. set (pl := i_piece_length i) in *.
    assert (A : (w <= 5 * piece_count w 5)%N) by (unfold piece_count; lia).
    assert (B : (pl <= 16384 * piece_count pl 16384)%N) by (unfold piece_count; lia).
    set (a := piece_count w 5) in *. set (b := piece_count pl 16384) in *.
    assert (C : (a * (rtt * b) <= time m - time n)%N).
    { assert (a * (rtt * b) <= a * (100 + rtt * (1 + b)))%N by (apply N.mul_le_mono_l; lia). lia. }
    assert (D : (w * pl <= (5 * a) * (16384 * b))%N) by (apply N.mul_le_mono; assumption).
    assert (E : (w * pl * rtt <= (5 * a) * (16384 * b) * rtt)%N) by (apply N.mul_le_mono_r; exact D).
    assert (F : ((5 * a) * (16384 * b) * rtt = 5 * 16384 * (a * (rtt * b)))%N) by ring. lia.
  Qed.

  Lemma c88_complete : forall n x, at_ n = Some x -> sy_working x = [] -> received x = [] ->
    forall m y i, (n <= m)%nat -> at_ m = Some y -> ta_info (sy_actor y) = Some i ->
    (forall idx, (idx < piece_count (lenN T) (i_piece_length i))%N -> In idx (completed y)) ->
    (time n + piece_count (lenN T / i_piece_length i) 5 * (100 + rtt * (1 + piece_count (i_piece_length i) 16384)) <= time m)%N.
  Proof.
    intros n x H W R m y i L HY EI ALL. pose proof (c88_limit n x H W R m y i L HY EI) as G.
    destruct (shape m y i HY EI) as [(_ & _ & _ & PP & _) _]. set (pl := i_piece_length i) in *.
    assert (I : incl (numbers (lenN T / pl)) (whole_pieces T pl (completed y))).
    { intros idx J. apply in_numbers in J. unfold whole_pieces. apply filter_In.
      assert (X : ((idx + 1) * pl <= lenN T)%N).
      { pose proof (N.mul_div_le (lenN T) pl ltac:(lia)). assert ((idx + 1) * pl <= (lenN T / pl) * pl)%N by (apply N.mul_le_mono_r; lia). lia. }
      split; [|apply N.leb_le; exact X]. apply ALL. destruct (count_bounds (lenN T) pl PP) as (B1 & B2 & B3). nia. }
    pose proof (NoDup_incl_length (numbers_nodup _) I) as LL.
    assert (NL : List.length (numbers (lenN T / pl)) = N.to_nat (lenN T / pl)) by (unfold numbers; rewrite map_length, seq_length; reflexivity).
    assert (LW : (lenN T / pl <= lenN (whole_pieces T pl (completed y)))%N) by (unfold lenN at 2; lia).
    assert (PM : (piece_count (lenN T / pl) 5 <= piece_count (lenN (whole_pieces T pl (completed y))) 5)%N) by (unfold piece_count; apply N.div_le_mono; lia).
    apply (N.mul_le_mono_r _ _ (100 + rtt * (1 + piece_count pl 16384))) in PM. lia.
  Qed.
End Afar.

(** ** Not much slower *)

Lemma one_by_one_most : forall rtt delay most k, (forall n, N.of_nat (delay n) <= most)%N -> (one_by_one rtt delay k <= N.of_nat k * (rtt + most))%N.
Proof. intros rtt delay most k D. induction k as [|k IH]; cbn [one_by_one]; [lia|]. specialize (D (N.of_nat k)). lia. Qed.

Lemma c88_in_time : forall sha1 p cwd F T d ops t time start some note store rtt opens most late,
  (forall b, List.length (sha1 b) = 20%nat) -> (forall n, pop_ok (ops n)) ->
  (forall n, let s := state_at sha1 p cwd d ops n in
     apart (List.length (pr_torrents s)) F T /\ (forall u, (u < List.length (pr_torrents s))%nat -> disk_ready cwd (F u) d) /\ told sha1 F T s) ->
  (forall u n x i, torrent_at sha1 p cwd d ops u n = Some x -> ta_info (sy_actor x) = Some i -> well_shaped i (T u)) ->
  (forall u n, served sha1 p 11 (T u) u (state_at sha1 p cwd d ops n) (ops n)) ->
  clock time -> prompt sha1 p cwd d ops t time start some note store ->
  (rtt + most <= 1000)%N -> punctual sha1 p cwd d ops t time rtt opens most late (T t) ->
  forall n x i, torrent_at sha1 p cwd d ops t n = Some x -> requested (sy_trace x) <> [] -> ta_info (sy_actor x) = Some i ->
  let count := piece_count (lenN (T t)) (i_piece_length i) in
  let fetch := (opens + 100 + piece_count (i_piece_length i) 16384 * (rtt + most) + late)%N in
  forall m, (time n + piece_count count 5 * (start + fetch + note) + count * store < time m)%N ->
    complete_on cwd (F t) (T t) (pr_disk (state_at sha1 p cwd d ops m)).
Proof.
  intros sha1 p cwd F T d ops t time start some note store rtt opens most late HL OK AP WS SV CL PT RM PU n x i H RQ EI count fetch m LM.
  refine (c85_served sha1 p cwd F T d ops t time start fetch note store HL OK AP WS SV CL _ n x i H RQ EI m LM).
  destruct PT as [PS _ PN PW]. constructor; auto.
  intros k y idx HY IK. apply in_map_iff in IK as (r & <- & IR).
  destruct (PU k y r HY IR) as (b & ra & v & pid & fuel & res & te & LB & LR & ((IH1 & NE & HP) & OP & DM) & LP & LF & ET & (m' & z & LK & LE & HZ & NI)).
  exists m', z. split; [exact LK|]. split; [|auto].
  apply In_nth_error in IR as (j & Hr).
  destruct (working_known _ _ _ _ _ _ _ _ _ _ (state_started sha1 p cwd d ops k OK) HY Hr) as (i' & nn & EI' & _).
  assert (i' = i) as ->.
  { destruct (Nat.le_gt_cases k n) as [L|L].
    - destruct (stays sha1 p cwd d ops t OK k n y HY L) as (x' & HX & _ & _ & G). rewrite H in HX. injection HX as <-. specialize (G i' EI'). congruence.
    - destruct (stays sha1 p cwd d ops t OK n k x H ltac:(lia)) as (y' & HY' & _ & _ & G). rewrite HY in HY'. injection HY' as <-. specialize (G i EI). congruence. }
  destruct (AP k) as (_ & _ & TD). pose proof (TD t y i HY EI') as DE. pose proof (WS t k y i HY EI') as (AL & P32 & O & C32).
  destruct (served_worker _ _ _ _ _ _ _ _ _ _ _ _ _ HL (state_started sha1 p cwd d ops k OK) HY Hr EI' DE) as (RI & LI & EP).
  rewrite RI in *. pose proof DE as (_ & _ & _ & PP & _ & HS).
  specialize (HS (rq_idx r) LI). specialize (HP (rq_idx r) LI). pose proof (piece_length_of (T t) _ _ PP LI) as PL. rewrite <- HP in *.
  set (piece := sd_piece v (rq_idx r)) in *.
  assert (LW : (piece_count (lenN piece) 16384 <= piece_count (i_piece_length i) 16384)%N) by (unfold piece_count; lia).
  assert (LS : (20 * N.to_nat (rq_idx r) + 20 <= List.length (i_pieces i))%nat).
  { pose proof (HL piece) as LL. rewrite <- HS, firstn_length, skipn_length in LL. lia. }
  destruct (c86_piece sha1 p fuel (time b) ra v pid (rq_endpoint r) i (rq_idx r) (lenN (T t))) as [G _]; auto; try lia.
  { exact (describes_total _ p _ _ _ DE). }
  { destruct AL as [AL|AL]; [auto|]. right. destruct (count_bounds (lenN (T t)) (i_piece_length i) PP) as (B1 & B2 & B3). unfold piece_count in *. nia. }
  { fold piece. lia. }
  fold piece in G. rewrite G in ET by (intros q _; specialize (DM (request_for (rq_idx r) (lenN piece) q)); lia). injection ET as <- <-.
  pose proof (one_by_one_most ra (fun n => sd_delay v (request_for (rq_idx r) (lenN piece) n)) most (N.to_nat (piece_count (lenN piece) 16384)) ltac:(intros; apply DM)) as OB.
  rewrite N2Nat.id in OB. specialize (OP (time b)). pose proof (time_mono time CL b k LB) as TB.
  assert (piece_count (lenN piece) 16384 * (ra + most) <= piece_count (i_piece_length i) 16384 * (rtt + most))%N by (apply N.mul_le_mono; lia).
  unfold fetch. lia.
Qed.
