(** PropSpeed: property C88 (how fast a torrent can be, from peers at a distance) *)
From Coq Require Import Permutation Lia.
From Verif Require Import Base Utf8 ModelBencode ModelMessages ModelTorrent ModelWriter ModelTracker ModelStream ModelPeer ModelLive ModelClock ModelTimed
  ModelActors ModelCache ModelMain ModelSha1 ProofBase SpecBencode SpecMessages SpecTorrent SpecStream SpecWriter SpecPieces SpecSystem SpecPeer
  SpecSession SpecLookup SpecMain ProofSha1 ProofSeeds ProofMain PropPeer PropSystem PropLookup PropMain SpecWhole SpecForever ProofForever PropForever
  SpecLive SpecSeeds PropSeeds SpecPace PropPace SpecTimed PropTimed SpecSpeed ProofSpeed.

(** C88: from servers at a distance of at least [rtt] milliseconds, five pieces at a time can be had in a tenth of a second and a round trip, and
    another round trip for every block; never more, however many servers there are. *)
Theorem C88_limit : forall sha1 p cwd d ops t time files T rtt, (forall b, List.length (sha1 b) = 20%nat) -> (forall n, pop_ok (ops n)) ->
  (forall n x i, torrent_at sha1 p cwd d ops t n = Some x -> ta_info (sy_actor x) = Some i -> describes sha1 i files T /\ well_shaped i T) ->
  from_afar sha1 p cwd d ops t time rtt T -> clock time ->
  forall n x, torrent_at sha1 p cwd d ops t n = Some x -> sy_working x = [] -> received x = [] ->
  forall m y i, (n <= m)%nat -> torrent_at sha1 p cwd d ops t m = Some y -> ta_info (sy_actor y) = Some i ->
  (time n + piece_count (lenN (whole_pieces T (i_piece_length i) (completed y))) 5 * (100 + rtt * (1 + piece_count (i_piece_length i) 16384)) <= time m)%N.
Proof. exact c88_limit. Qed.
Print Assumptions C88_limit.

(** C88: so there never come more than 80 KiB in a round trip. *)
Theorem C88_rate : forall sha1 p cwd d ops t time files T rtt, (forall b, List.length (sha1 b) = 20%nat) -> (forall n, pop_ok (ops n)) ->
  (forall n x i, torrent_at sha1 p cwd d ops t n = Some x -> ta_info (sy_actor x) = Some i -> describes sha1 i files T /\ well_shaped i T) ->
  from_afar sha1 p cwd d ops t time rtt T -> clock time ->
  forall n x, torrent_at sha1 p cwd d ops t n = Some x -> sy_working x = [] -> received x = [] ->
  forall m y i, (n <= m)%nat -> torrent_at sha1 p cwd d ops t m = Some y -> ta_info (sy_actor y) = Some i ->
  (lenN (whole_pieces T (i_piece_length i) (completed y)) * i_piece_length i * rtt <= 5 * 16384 * (time m - time n))%N.
Proof. exact c88_rate. Qed.
Print Assumptions C88_rate.

(** C88: and all the pieces have not been received earlier than that. *)
Theorem C88_complete : forall sha1 p cwd d ops t time files T rtt, (forall b, List.length (sha1 b) = 20%nat) -> (forall n, pop_ok (ops n)) ->
  (forall n x i, torrent_at sha1 p cwd d ops t n = Some x -> ta_info (sy_actor x) = Some i -> describes sha1 i files T /\ well_shaped i T) ->
  from_afar sha1 p cwd d ops t time rtt T -> clock time ->
  forall n x, torrent_at sha1 p cwd d ops t n = Some x -> sy_working x = [] -> received x = [] ->
  forall m y i, (n <= m)%nat -> torrent_at sha1 p cwd d ops t m = Some y -> ta_info (sy_actor y) = Some i ->
  (forall idx, (idx < piece_count (lenN T) (i_piece_length i))%N -> In idx (completed y)) ->
  (time n + piece_count (lenN T / i_piece_length i) 5 * (100 + rtt * (1 + piece_count (i_piece_length i) 16384)) <= time m)%N.
Proof. exact c88_complete. Qed.
Print Assumptions C88_complete.

(** C88: and it is not much slower, if the peers are servers as in C83 and every download ends at most [late] after its session with a server
    at a distance of at most [rtt], that takes at most [most] for a block and [opens] for its opening: a round of five pieces takes as
    long as one of them. *)
Theorem C88_in_time : forall sha1 p cwd F T d ops t time start some note store rtt opens most late,
  (forall b, List.length (sha1 b) = 20%nat) -> (forall n, pop_ok (ops n)) ->
  (forall n, let s := state_at sha1 p cwd d ops n in
     apart (List.length (pr_torrents s)) F T /\ (forall u, (u < List.length (pr_torrents s))%nat -> disk_ready cwd (F u) d) /\ told sha1 F T s) ->
  (forall u n x i, torrent_at sha1 p cwd d ops u n = Some x -> ta_info (sy_actor x) = Some i -> well_shaped i (T u)) ->
  (forall u n, served sha1 p 11 (T u) u (state_at sha1 p cwd d ops n) (ops n)) ->
  clock time -> prompt sha1 p cwd d ops t time start some note store ->
  (rtt + most <= 1000)%N -> punctual sha1 p cwd d ops t time rtt opens most late (T t) ->
  forall n x i, torrent_at sha1 p cwd d ops t n = Some x -> requested (sy_trace x) <> [] -> ta_info (sy_actor x) = Some i ->
  let count := piece_count (lenN (T t)) (i_piece_length i) in
  let fetch := (opens + 100 + piece_count (i_piece_length i) 16384 * (rtt + most) + late)%N in
  forall m, (time n + piece_count count 5 * (start + fetch + note) + count * store < time m)%N ->
    complete_on cwd (F t) (T t) (pr_disk (state_at sha1 p cwd d ops m)).
Proof. exact c88_in_time. Qed.
Print Assumptions C88_in_time.

(** ** Example: a torrent of one piece of one block, from a server at 40 ms that takes 25 ms for the block *)

Definition xv_info : info :=
  {| i_length := Some 5%N; i_files := None; i_name := s2b "x"; i_piece_length := 5%N; i_pieces := sha1 xs_data |}.
Definition xv_hash : bytes := compute_info_hash sha1 xv_info.
Definition xv_meta : bytes := enc_info xv_info.
Definition xv_list : list pop := xm_add xv_hash ++
  PHandle 0 0 1000 5 (Some (info_seed xv_hash xm_pid (lenN xv_meta) 3 [xv_meta])) xm_pid xm_same ::
  repeat (PHandle 0 0 0 0 None xm_pid xm_same) 10 ++
  [PStart 0; PFinish 0 0 (Some (seed xv_hash xm_pid 0 [xs_data])) xm_pid 21; PHandle 0 0 0 0 None xm_pid xm_same; PWrite 0].
(** Everything takes no time but the download. *)
Definition xv_time (n : nat) : N := if (n <=? 27)%nat then 0%N else 254%N.
Definition xv_server : server :=
  {| sd_ih := xv_hash; sd_pid := sd_pid (xt_server 25 false); sd_hello := sd_hello (xt_server 25 false);
     sd_interested := sd_interested (xt_server 25 false); sd_extended := sd_extended (xt_server 25 false);
     sd_piece := torrent_piece xs_data 5; sd_metadata := []; sd_number := 1%N; sd_delay := fun _ => 25%nat; sd_cuts := fun _ => [] |}.
Lemma xv_near : near 40 some_size xv_server.
Proof.
  destruct (C86_near 40 25 false ltac:(discriminate)) as [_ [A B C D E F G H]]. constructor; assumption.
Qed.
Lemma xv_describes : describes sha1 xv_info xs_files xs_data.
Proof.
  pose proof xs_describes as (A & B & C & _ & E & _).
  split; [apply SpecTorrent.co_single; reflexivity|]. split; [exact B|]. split; [exact C|]. split; [reflexivity|]. split; [exact E|].
  intros idx I. rewrite xs_length in I. cbn [xv_info i_piece_length i_pieces] in *.
  assert (D : forall m, List.length (sha1 m) = 20%nat) by (intros; apply digest_length).
  assert (Z : idx = 0%N) by (change (piece_count 5 5) with 1%N in I; lia). subst idx.
  change (20 * N.to_nat 0)%nat with 0%nat. rewrite skipn_O. rewrite firstn_all2 by (rewrite D; auto). reflexivity.
Qed.
Definition xv_working (n : nat) : list piece_requested :=
  match nth_error (pr_torrents (xm_run (firstn n xv_list))) 0 with Some x => sy_working x | None => [] end.
Definition xv_both (r : piece_requested) : bool :=
  match download sha1 Debug 21 (Some (seed xv_hash xm_pid 0 [xs_data])) xm_pid (rq_endpoint r) (rq_info r) (rq_idx r),
    download_t serving (far 40 xv_server) sha1 Debug 21 0 [] newly xm_pid (rq_endpoint r) (rq_info r) (rq_idx r) with
  | Ret (Ok a), Ret (Ok b, ended) => bytes_eqb a b && (ended =? 254)%N
  | _, _ => false
  end.
Lemma xv_end : nth 28 xv_list (PStart 0) = PFinish 0 0 (Some (seed xv_hash xm_pid 0 [xs_data])) xm_pid 21.
Proof. reflexivity. Qed.
Lemma xv_only : forall n, (n < 31)%nat -> n <> 28%nat -> match nth n xv_list (PStart 0) with PFinish _ _ _ _ _ => False | _ => True end.
Proof. intros n L NE. do 31 (destruct n as [|n]; [first [exact I|congruence]|]). lia. Qed.
Lemma xv_keeps : keeps sha1 xv_info xs_data 40 xv_server.
Proof. split; [reflexivity|split; [exact xv_near|intros; reflexivity]]. Qed.
Lemma xv_room : (1 + 10 * N.to_nat (piece_count (i_piece_length xv_info) 16384) <= 21)%nat.
Proof. apply Nat.leb_le. vm_compute. reflexivity. Qed.
Lemma xv_starts : xv_time 27 = 0%N.
Proof. reflexivity. Qed.
Lemma xv_ends : (254 <= xv_time 28)%N.
Proof. discriminate. Qed.
Lemma xv_pid : List.length xm_pid = 20%nat.
Proof. reflexivity. Qed.
Lemma xv_fetch : forall r, xv_both r = true ->
  exists res, download sha1 Debug 21 (Some (seed xv_hash xm_pid 0 [xs_data])) xm_pid (rq_endpoint r) (rq_info r) (rq_idx r) = Ret res /\
  download_t serving (far 40 xv_server) sha1 Debug 21 0 [] newly xm_pid (rq_endpoint r) (rq_info r) (rq_idx r) = Ret (res, 254%N).
Proof.
  intros r W. unfold xv_both in W.
  generalize dependent (download sha1 Debug 21 (Some (seed xv_hash xm_pid 0 [xs_data])) xm_pid (rq_endpoint r) (rq_info r) (rq_idx r)).
  generalize dependent (download_t serving (far 40 xv_server) sha1 Debug 21 0 [] newly xm_pid (rq_endpoint r) (rq_info r) (rq_idx r)).
  intros o o' W. destruct o' as [[a|e]| |]; try discriminate W. destruct o as [[[a'|e] ended]| |]; try discriminate W.
  apply andb_prop in W as [W1 W4]. apply bytes_eqb_eq in W1. subst a'. apply N.eqb_eq in W4. subst ended. exists (Ok a). split; reflexivity.
Qed.
Lemma xv_before : (28 < 31)%nat.
Proof. lia. Qed.
Lemma xv_afar : forall h p cwd d l net pid fuel time v T i rtt ended b e,
  List.length l = e -> (S b < e)%nat -> nth (S b) l (PStart 0) = PFinish 0 0 net pid fuel ->
  (forall n, (n < e)%nat -> n <> S b -> match nth n l (PStart 0) with PFinish _ _ _ _ _ => False | _ => True end) ->
  (forall z, nth_error (pr_torrents (pr_run h p cwd (process_init d) (firstn (S b) l))) 0 = Some z -> exists r res, sy_working z = [r] /\ rq_info r = i /\
     download h p fuel net pid (rq_endpoint r) (rq_info r) (rq_idx r) = Ret res /\
     download_t serving (far rtt v) h p fuel (time b) [] newly pid (rq_endpoint r) (rq_info r) (rq_idx r) = Ret (res, ended)) ->
  keeps h i T rtt v -> List.length pid = 20%nat -> (1 + 10 * N.to_nat (piece_count (i_piece_length i) 16384) <= fuel)%nat -> (ended <= time (S b))%N ->
  from_afar h p cwd d (followed_by l (fun _ => PStart 0)) 0 time rtt T.
Proof.
  intros h p cwd d l net pid fuel time v T i rtt ended b e LE LB F28 FIN WK KE PI RO EN' n k net' pid' fuel' z r EO HZ Hr. destruct (Nat.lt_ge_cases n e) as [L|L].
  2:{ unfold followed_by in EO. rewrite LE, (proj2 (Nat.ltb_ge n _)) in EO by lia. discriminate. }
  assert (EN : followed_by l (fun _ => PStart 0) n = nth n l (PStart 0)) by (unfold followed_by; rewrite LE, (proj2 (Nat.ltb_lt n _)) by lia; reflexivity).
  rewrite EN in EO. assert (n = S b) as ->.
  { destruct (Nat.eq_dec n (S b)) as [D|D]; [exact D|]. exfalso. specialize (FIN n L D). rewrite EO in FIN. exact FIN. }
  rewrite F28 in EO. injection EO as <- <- <- <-. unfold torrent_at in HZ. rewrite followed_first in HZ by lia.
  destruct (WK z HZ) as (r0 & res & WZ & RI & ED & ET). rewrite WZ in Hr. cbn in Hr. injection Hr as ->.
  exists b, rtt, v, res, ended. split; [lia|]. split.
  { intros j u J HU. assert (j = S b) by lia. subst j. unfold torrent_at in HU. rewrite followed_first in HU by lia. rewrite HZ in HU. injection HU as <-. rewrite WZ. left. reflexivity. }
  split; [apply N.le_refl|]. rewrite <- RI in KE, RO. repeat (split; [assumption|]). assumption.
Qed.
Example C88_example : let ops := followed_by xv_list (fun _ => PStart 0) in
  (forall n, pop_ok (ops n)) /\
  (forall n x i, torrent_at sha1 Debug xm_cwd xm_empty ops 0 n = Some x -> ta_info (sy_actor x) = Some i -> describes sha1 i xs_files xs_data /\ well_shaped i xs_data) /\
  from_afar sha1 Debug xm_cwd xm_empty ops 0 xv_time 40 xs_data /\ clock xv_time /\
  (exists x, torrent_at sha1 Debug xm_cwd xm_empty ops 0 27 = Some x /\ sy_working x = [] /\ received x = [] /\ xv_time 27 = 0%N) /\
  (exists y, torrent_at sha1 Debug xm_cwd xm_empty ops 0 30 = Some y /\ ta_info (sy_actor y) = Some xv_info /\ completed y = [0]%N /\ xv_time 30 = 254%N) /\
  whole_pieces xs_data 5 [0]%N = [0]%N /\ (piece_count 1 5 * (100 + 40 * (1 + piece_count 5 16384)) = 180)%N.
Proof.
  cbn zeta.
  assert (E : match nth_error (pr_torrents (xm_run xv_list)) 0 with Some x => (sy_queue x, ta_info (sy_actor x)) | None => ([], None) end = ([], Some xv_info)) by (vm_compute; reflexivity).
  destruct (nth_error (pr_torrents (xm_run xv_list)) 0) as [x|] eqn:EX; [|discriminate E]. injection E as Q EI.
  assert (B : match nth_error (pr_torrents (xm_run (firstn 27 xv_list))) 0 with Some x => (true, sy_working x, received x) | None => (false, [], []) end = (true, [], [])) by (vm_compute; reflexivity).
  destruct (nth_error (pr_torrents (xm_run (firstn 27 xv_list))) 0) as [b|] eqn:EB; [|discriminate B]. injection B as B1 B2.
  assert (Y : match nth_error (pr_torrents (xm_run (firstn 30 xv_list))) 0 with Some x => (ta_info (sy_actor x), completed x) | None => (None, []) end = (Some xv_info, [0]%N)) by (vm_compute; reflexivity).
  destruct (nth_error (pr_torrents (xm_run (firstn 30 xv_list))) 0) as [y|] eqn:EY; [|discriminate Y]. injection Y as Y1 Y2.
  assert (WK : forall z, nth_error (pr_torrents (xm_run (firstn 28 xv_list))) 0 = Some z -> exists r, sy_working z = [r] /\ rq_info r = xv_info /\ xv_both r = true).
  { intros z HZ. assert (W : match xv_working 28 with [r] => xv_both r | _ => false end = true) by (vm_compute; reflexivity).
    assert (RI : map rq_info (xv_working 28) = [xv_info]) by (vm_compute; reflexivity). unfold xv_working in W, RI. rewrite HZ in W, RI.
    destruct (sy_working z) as [|r [|]]; try discriminate W. exists r. split; [reflexivity|]. split; [injection RI as RI; exact RI|exact W]. }
  assert (OL : Forall pop_ok xv_list) by ops_ok.
  assert (NL : xv_list <> []) by discriminate.
  assert (CH : forallb not_add (tl xv_list) = true) by (vm_compute; reflexivity).
  assert (LE : List.length xv_list = 31%nat) by (vm_compute; reflexivity).
  pose proof xv_end as F28. pose proof xv_only as FIN.
  revert OL NL CH EX EB EY LE FIN F28 WK. generalize xv_list. intros l OL NL CH EX EB EY LE FIN F28 WK.
  assert (SI : forall n t y j, torrent_at sha1 Debug xm_cwd xm_empty (followed_by l (fun _ => PStart 0)) t n = Some y -> ta_info (sy_actor y) = Some j -> t = 0%nat /\ j = xv_info)
    by exact (xs_same_info xv_info xs_F xs_T l x xv_describes OL NL CH EX Q EI).
  split; [apply followed_ok; [exact OL|intros k; exact I]|]. split.
  { intros n z i HZ EZ. destruct (SI n 0%nat z i HZ EZ) as [_ ->]. split; [exact xv_describes|].
    split; [right; discriminate|]. rewrite xs_length. split; [reflexivity|]. split; discriminate. }
  split.
  { refine (xv_afar sha1 Debug xm_cwd xm_empty l _ _ _ xv_time xv_server xs_data xv_info 40%N 254%N 27%nat 31%nat LE xv_before F28 FIN _ xv_keeps xv_pid xv_room xv_ends).
    intros z HZ. destruct (WK z HZ) as (r & WZ & RI & W). destruct (xv_fetch r W) as (res & ED & ET). exists r, res.
    split; [exact WZ|]. split; [exact RI|]. split; [exact ED|]. rewrite xv_starts. exact ET. }
  split.
  { intros n. unfold xv_time. destruct (n <=? 27)%nat eqn:A, (S n <=? 27)%nat eqn:C; lia. }
  split; [exists b; split; [unfold torrent_at; rewrite followed_first by lia; exact EB|auto]|].
  split; [exists y; split; [unfold torrent_at; rewrite followed_first by lia; exact EY|auto]|].
  split; vm_compute; reflexivity.
Qed.

(** *** Another step between, so that the download has begun at once; for C88_in_time *)
Definition xv_steps : list pop := firstn 28 xv_list ++ PStart 0 :: skipn 28 xv_list.
Definition xv_times : list N := repeat 0%N 29 ++ repeat 254%N 4.
Lemma xv_quick : quick sha1 xv_info xs_data 40 89 25 xv_server.
Proof.
  split; [exact xv_keeps|]. split; [|intros m; vm_compute; discriminate].
  intros now. unfold ready_at, opening_at, xv_server. cbn [xt_server sd_hello sd_interested sd_extended moments_of app].
  cbn [all_read]. unfold read_by. cbn [snd xt_hello extension_message]. lia.
Qed.
Lemma xv_ends_soon : forall (time : nat -> N) l x b T i rtt v pid fuel opens most ended,
  nth_error (pr_torrents (xm_run l)) 0 = Some x -> sy_queue x = [] -> sy_working x = [] -> (S (S (S b)) <= List.length l)%nat ->
  (forall n z, (n <= List.length l)%nat -> n <> S b -> n <> S (S b) -> nth_error (pr_torrents (pr_run sha1 Debug xm_cwd (process_init xm_empty) (firstn n l))) 0 = Some z -> sy_working z = []) ->
  (forall n z, n = S b \/ n = S (S b) -> nth_error (pr_torrents (pr_run sha1 Debug xm_cwd (process_init xm_empty) (firstn n l))) 0 = Some z ->
     exists r res, sy_working z = [r] /\ rq_info r = i /\
     download_t serving (far rtt v) sha1 Debug fuel (time b) [] newly pid (rq_endpoint r) (rq_info r) (rq_idx r) = Ret (res, ended)) ->
  quick sha1 i T rtt opens most v -> List.length pid = 20%nat -> (1 + 10 * N.to_nat (piece_count (i_piece_length i) 16384) <= fuel)%nat ->
  (time (S (S (S b))) <= ended)%N ->
  punctual sha1 Debug xm_cwd xm_empty (followed_by l (fun _ => PStart 0)) 0 time rtt opens most 0 T.
Proof.
  intros time l x b T i rtt v pid fuel opens most ended EX Q K LB IDLE BUSY QU LP LF TE n z r HZ IR.
  assert (SX : torrent_at sha1 Debug xm_cwd xm_empty (followed_by l (fun _ => PStart 0)) 0 (List.length l) = Some x).
  { unfold torrent_at. rewrite followed_first, firstn_all by lia. exact EX. }
  destruct (Nat.le_gt_cases n (List.length l)) as [L|L].
  2:{ exfalso. destruct (idle_later sha1 Debug xm_cwd xm_empty l x SX Q (n - List.length l)%nat) as (D & E & _).
      replace (List.length l + (n - List.length l))%nat with n in E by lia. rewrite HZ in E. injection E as ->. cbn [set_disk sy_working] in IR. rewrite K in IR. exact IR. }
  assert (NN : n = S b \/ n = S (S b)).
  { destruct (Nat.eq_dec n (S b)) as [|N1]; [auto|]. destruct (Nat.eq_dec n (S (S b))) as [|N2]; [auto|].
    exfalso. unfold torrent_at in HZ. rewrite followed_first in HZ by exact L. rewrite (IDLE n z L N1 N2 HZ) in IR. exact IR. }
  assert (NX : exists y, torrent_at sha1 Debug xm_cwd xm_empty (followed_by l (fun _ => PStart 0)) 0 (S (S (S b))) = Some y).
  { assert (F : forall k, exists y, torrent_at sha1 Debug xm_cwd xm_empty (followed_by l (fun _ => PStart 0)) 0 (k + n) = Some y).
    { induction k as [|k (w & Hw)]; [exists z; exact HZ|]. unfold torrent_at in *. cbn [Nat.add]. rewrite state_S.
      destruct (torrent_forward sha1 Debug xm_cwd _ (followed_by l (fun _ => PStart 0) (k + n)) 0 w Hw) as (z' & Z' & _). eauto. }
    destruct (F (S (S (S b)) - n)%nat) as (y & HY). replace (S (S (S b)) - n + n)%nat with (S (S (S b))) in HY by lia. eauto. }
  destruct NX as (y & HY). pose proof HZ as HZ'. unfold torrent_at in HZ'. rewrite followed_first in HZ' by exact L.
  destruct (BUSY n z NN HZ') as (r' & res & WZ & RI & ET). rewrite WZ in IR. destruct IR as [<-|[]].
  exists b, rtt, v, pid, fuel, res, ended. split; [lia|]. split; [apply N.le_refl|]. rewrite RI in *. split; [exact QU|]. split; [exact LP|]. split; [exact LF|].
  split; [exact ET|]. exists (S (S (S b))), y. split; [lia|]. split; [rewrite N.add_0_r; exact TE|]. split; [exact HY|].
  unfold torrent_at in HY. rewrite followed_first in HY by exact LB. rewrite (IDLE (S (S (S b))) y LB ltac:(lia) ltac:(lia) HY). intros [].
Qed.
(** No worker is busy, but before the steps [k] and [k + 1]. *)
Definition idle_but (k : nat) (l : list (N * places)) : bool :=
  forallb (fun q => Nat.eqb (fst q) k || Nat.eqb (fst q) (S k) || match pl_working (snd (snd q)) with [] => true | _ => false end) (combine (seq 0 (List.length l)) l).
Lemma idle_but_nth : forall k l n tm s, idle_but k l = true -> nth_error l n = Some (tm, s) -> n <> k -> n <> S k -> pl_working s = [].
Proof.
  intros k l n tm s C H NE NE'. unfold idle_but in C. rewrite forallb_forall in C.
  assert (G : forall (a : list nat) (b : list (N * places)) n x y, nth_error a n = Some x -> nth_error b n = Some y -> In (x, y) (combine a b)).
  { induction a as [|? a IH]; intros [|? b] [|j] x y A B; cbn in *; try discriminate; [left; congruence|right; eauto]. }
  assert (L : (n < List.length l)%nat) by (apply nth_error_Some; congruence).
  specialize (C (n, (tm, s)) (G _ _ n _ _ (eq_trans (nth_error_nth' _ 0%nat ltac:(rewrite seq_length; exact L)) (f_equal Some (seq_nth _ 0 L))) H)). cbn [fst snd] in C.
  apply orb_prop in C as [C|C]; [apply orb_prop in C as [C|C]; apply Nat.eqb_eq in C; contradiction|]. destruct (pl_working s); [reflexivity|discriminate C].
Qed.
Lemma xv_before' : (30 <= 32)%nat.
Proof. lia. Qed.
Lemma xv_before2 : (27 <= 32)%nat.
Proof. lia. Qed.
Definition xv_working_steps (n : nat) : list piece_requested :=
  match nth_error (pr_torrents (xm_run (firstn n xv_steps))) 0 with Some x => sy_working x | None => [] end.
Definition xv_check (all : list (N * places)) : bool :=
  leaves pl_queue pl_queue 0 all && leaves pl_working pl_working 254 all && leaves pl_answers pl_answers 0 all && leaves pl_writer pl_writer 0 all && takes 0 all && idle_but 28 all.
Lemma xv_begins : nth 27 xv_times 255%N = 0%N.
Proof. reflexivity. Qed.
Lemma xv_over : (nth 30 xv_times 255 <= 254)%N.
Proof. discriminate. Qed.

(** The hypotheses of C88_in_time hold of these steps: the bound is 254 ms, as long as the download takes. *)
Example C88_example_in_time : let ops := followed_by xv_steps (fun _ => PStart 0) in let time := fun n => nth n xv_times 255%N in
  (forall n, pop_ok (ops n)) /\
  (forall n, let s := state_at sha1 Debug xm_cwd xm_empty ops n in
     apart (List.length (pr_torrents s)) xs_F xs_T /\ (forall u, (u < List.length (pr_torrents s))%nat -> disk_ready xm_cwd (xs_F u) xm_empty) /\ told sha1 xs_F xs_T s) /\
  (forall u n x i, torrent_at sha1 Debug xm_cwd xm_empty ops u n = Some x -> ta_info (sy_actor x) = Some i -> well_shaped i (xs_T u)) /\
  (forall u n, served sha1 Debug 11 (xs_T u) u (state_at sha1 Debug xm_cwd xm_empty ops n) (ops n)) /\
  clock time /\ prompt sha1 Debug xm_cwd xm_empty ops 0 time 0 254 0 0 /\ (40 + 25 <= 1000)%N /\
  punctual sha1 Debug xm_cwd xm_empty ops 0 time 40 89 25 0 xs_data /\
  (exists x, torrent_at sha1 Debug xm_cwd xm_empty ops 0 27 = Some x /\ requested (sy_trace x) <> [] /\ ta_info (sy_actor x) = Some xv_info) /\
  (time 27%nat + piece_count (piece_count (lenN xs_data) 5) 5 * (0 + (89 + 100 + piece_count 5 16384 * (40 + 25) + 0) + 0) + piece_count (lenN xs_data) 5 * 0 = 254)%N /\
  time 33%nat = 255%N.
Proof.
  cbn zeta.
  assert (E : match nth_error (pr_torrents (xm_run xv_steps)) 0 with
    | Some x => (sy_mail x, sy_queue x, sy_working x, sy_writer x, ta_info (sy_actor x), match requested (sy_trace x) with [] => false | _ => true end)
    | None => ([], [], [], [], None, false) end = ([], [], [], [], Some xv_info, true)) by (vm_compute; reflexivity).
  destruct (nth_error (pr_torrents (xm_run xv_steps)) 0) as [x|] eqn:EX; [|discriminate E]. injection E as M Q K W EI RQ.
  assert (Z : match nth_error (pr_torrents (xm_run (firstn (List.length xv_steps - 1) xv_steps))) 0 with
    | Some y => match sy_writer y with [] => false | _ => true end
    | None => false end = true) by (vm_compute; reflexivity).
  destruct (nth_error (pr_torrents (xm_run (firstn (List.length xv_steps - 1) xv_steps))) 0) as [y|] eqn:EY; [|discriminate Z].
  assert (B : match nth_error (pr_torrents (xm_run (firstn 27 xv_steps))) 0 with
    | Some x => (ta_info (sy_actor x), match requested (sy_trace x) with [] => false | _ => true end)
    | None => (None, false) end = (Some xv_info, true)) by (vm_compute; reflexivity).
  destruct (nth_error (pr_torrents (xm_run (firstn 27 xv_steps))) 0) as [b|] eqn:EB; [|discriminate B]. injection B as B3 B4.
  assert (NW : sy_writer y <> []) by (destruct (sy_writer y); [discriminate Z|discriminate]).
  assert (NR : requested (sy_trace x) <> []) by (destruct (requested (sy_trace x)); [discriminate RQ|discriminate]).
  assert (NB : requested (sy_trace b) <> []) by (destruct (requested (sy_trace b)); [discriminate B4|discriminate]).
  assert (WK : forall n z, n = 28%nat \/ n = 29%nat -> nth_error (pr_torrents (xm_run (firstn n xv_steps))) 0 = Some z -> exists r, sy_working z = [r] /\ rq_info r = xv_info /\ xv_both r = true).
  { intros n z NN HZ. assert (V : match xv_working_steps n with [r] => xv_both r | _ => false end = true) by (destruct NN as [->| ->]; vm_compute; reflexivity).
    assert (RI : map rq_info (xv_working_steps n) = [xv_info]) by (destruct NN as [->| ->]; vm_compute; reflexivity). unfold xv_working_steps in V, RI. rewrite HZ in V, RI.
    destruct (sy_working z) as [|r [|]]; try discriminate V. exists r. split; [reflexivity|]. split; [injection RI as RI; exact RI|exact V]. }
  assert (OL : Forall pop_ok xv_steps) by ops_ok.
  assert (NL : xv_steps <> []) by discriminate.
  assert (CH : forallb not_add (tl xv_steps) = true) by (vm_compute; reflexivity).
  assert (G : xf_check xf_good (process_init xm_empty) xv_steps = true) by (vm_compute; reflexivity).
  assert (SV : xs_check 11 (xs_server (compute_info_hash sha1 xv_info) (i_piece_length xv_info) xs_data) (process_init xm_empty) xv_steps = true) by (vm_compute; reflexivity).
  assert (C : xv_check (combine xv_times (map xp_places (scan (process_init xm_empty) xv_steps))) = true) by (vm_compute; reflexivity).
  assert (LE : List.length xv_steps = 32%nat) by (vm_compute; reflexivity).
  assert (LT : List.length xv_times = S (List.length xv_steps)) by (vm_compute; reflexivity).
  assert (T30 : Forall (fun tm => (tm <= 255)%N) xv_times).
  { apply Forall_forall. intros tm I. assert (F : forallb (fun tm => (tm <=? 255)%N) xv_times = true) by (vm_compute; reflexivity). rewrite forallb_forall in F. apply N.leb_le. exact (F tm I). }
  assert (CK : clock (fun n => nth n xv_times 255%N)).
  { intros n. assert (F : forallb (fun k => (nth k xv_times 255 <=? nth (S k) xv_times 255)%N) (seq 0 33) = true) by (vm_compute; reflexivity).
    destruct (Nat.lt_ge_cases n 33) as [L|L]; [|rewrite !nth_overflow by (rewrite LT, LE; lia); lia]. rewrite forallb_forall in F. apply N.leb_le. apply F. apply in_seq. lia. }
  assert (TT : nth 33 xv_times 255%N = 255%N) by reflexivity.
  assert (AP : forall n, apart n xs_F xs_T).
  { intros n. split; [intros t _; split; [apply xs_describes|intros f [<-|[]]; discriminate]|]. intros t u _ _. left. auto. }
  pose proof xv_begins as T0. pose proof xv_over as T1.
  revert LT T30 CK TT T0 T1 OL NL CH EX EB NR G EY LE SV C WK. generalize xv_times. generalize xv_steps. clear Z RQ B4.
  intros l times LT T30 CK TT T0 T1 OL NL CH EX EB NR G EY LE SV C WK.
  pose proof (xs_same_info xv_info xs_F xs_T l x xv_describes OL NL CH EX Q EI) as SI.
  destruct (xf_idle xv_info xs_F xs_T l x y xv_describes AP ltac:(intros u f _; split; auto) OL NL CH EX (conj M (conj Q (conj K W))) EI NR G EY NW) as (H1 & H2 & _ & _ & _ & _).
  unfold xv_check in C. apply andb_prop in C as [C C6]. apply andb_prop in C as [C C5]. apply andb_prop in C as [C C4]. apply andb_prop in C as [C C3]. apply andb_prop in C as [C1 C2].
  destruct (xp_paced 255 l times x 0 254 0 0 0 LT T30 EX (conj M (conj Q (conj K W))) C1 C2 C3 C4 C5) as [PR _].
  split; [exact H1|]. split; [exact H2|]. split.
  { intros u n z i HZ EZ. destruct (SI n u z i HZ EZ) as [_ ->].
    split; [right; discriminate|]. unfold xs_T. rewrite xs_length. split; [reflexivity|]. split; discriminate. }
  split; [intros u; apply (xs_served 11 xv_info xs_data l OL SI SV)|]. split; [exact CK|]. split; [exact PR|]. split; [discriminate|].
  split; [|split; [|split; [rewrite T0; reflexivity|exact TT]]].
  - refine (xv_ends_soon _ l x 27%nat xs_data xv_info 40%N xv_server xm_pid 21%nat 89%N 25%N 254%N EX Q K ltac:(rewrite LE; exact xv_before') _ _ xv_quick xv_pid xv_room T1).
    + intros n z L NE NE' HZ. pose proof (xp_nth 255 l times LT n L) as X. pose proof (idle_but_nth 28 _ n _ _ C6 X NE NE') as V.
      rewrite followed_first in V by exact L. unfold xp_places in V. rewrite HZ in V. cbn [places_of pl_working] in V. destruct (sy_working z); [reflexivity|discriminate V].
    + intros n z NN HZ. destruct (WK n z NN HZ) as (r & WZ & RI & V). destruct (xv_fetch r V) as (res & ED & ET). exists r, res. split; [exact WZ|]. split; [exact RI|]. rewrite T0. exact ET.
  - exists b. split; [unfold torrent_at; rewrite followed_first by (rewrite LE; exact xv_before2); exact EB|]. auto.
Qed.
