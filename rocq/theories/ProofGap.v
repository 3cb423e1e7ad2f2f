(** ProofGap: proofs for PropGap *)
From Coq Require Import Lia.
From Verif Require Import Base ModelTorrent ModelWriter ModelActors ProofBase ProofBencode ProofPeer SpecTorrent ProofTorrent SpecWriter ProofWriter SpecSystem ProofSystem SpecGap.

Lemma write_at_byte : forall c s x j b, nth_error (write_at c s x) j = Some b ->
  ((N.to_nat s <= j < N.to_nat s + List.length x)%nat /\ nth_error x (j - N.to_nat s) = Some b) \/
  nth_error c j = Some b \/ (b = 0%N /\ (List.length c <= j)%nat).
Proof.
  intros c s x j b H. destruct x as [|y x]; [auto|].
  destruct (Nat.lt_ge_cases j (N.to_nat s)) as [L|L].
  - destruct (Nat.lt_ge_cases j (List.length c)) as [LC|LC]; [rewrite write_at_out in H by auto; auto|].
    right. right. split; [|exact LC]. unfold write_at in H. rewrite nth_error_app2 in H by (rewrite firstn_length; lia).
    rewrite nth_error_app1 in H by (rewrite firstn_length, repeat_length; lia). apply nth_error_In, repeat_spec in H. exact H.
  - destruct (Nat.lt_ge_cases j (N.to_nat s + List.length (y :: x))) as [L2|L2]; [rewrite write_at_in in H by lia; auto|].
    right. left. rewrite <- H. symmetry. apply write_at_out; [|auto].
    assert (J : (j < List.length (write_at c s (y :: x)))%nat) by (apply nth_error_Some; congruence).
    pose proof (write_at_length c s (y :: x)) as W. unfold lenN in W. cbn [List.length] in *. lia.
Qed.
Lemma accounted_refl : forall cwd files T d, accounted cwd files T d d.
Proof. intros cwd files T d k f j b _ H. auto. Qed.
Lemma accounted_trans : forall cwd files T d1 d2 d3, accounted cwd files T d1 d2 -> accounted cwd files T d2 d3 ->
  (forall k f, nth_error files k = Some f -> (List.length (text_at d1 (cwd ++ f_path f)) <= List.length (text_at d2 (cwd ++ f_path f)))%nat) ->
  accounted cwd files T d1 d3.
Proof.
  intros cwd files T d1 d2 d3 A B L k f j b K H. destruct (B k f j b K H) as [C|[C|[C D]]]; [auto|exact (A k f j b K C)|].
  right. right. split; [exact C|]. specialize (L k f K). lia.
Qed.
Lemma gap_write : forall n cwd files T k w d d2, total_length files = lenN T -> good_files files -> right_write files T k w ->
  write_to_filesystem_n n cwd d w = Ret d2 ->
  accounted cwd files T d d2 /\
  forall k f, nth_error files k = Some f -> (List.length (text_at d (cwd ++ f_path f)) <= List.length (text_at d2 (cwd ++ f_path f)))%nat.
Proof.
  intros n cwd files T k w d d2 TL G (f & Hk & P & B & RW) W.
  assert (S : sane_path (fw_path w)).
  { rewrite P. destruct G as [F _]. rewrite Forall_forall in F. apply F. eapply nth_error_In; eauto. }
  destruct (wfs_spec _ _ _ _ _ S W) as (_ & _ & _ & S2 & S3). rewrite P in S2, S3.
  assert (OTH : forall k' g, nth_error files k' = Some g -> k' <> k -> text_at d2 (cwd ++ f_path g) = text_at d (cwd ++ f_path g)).
  { intros k' g Hk' N. unfold text_at. rewrite S3; [reflexivity| |].
    - intros Eq. apply app_inv_head in Eq. destruct G as [_ G]. apply (G k' k g f Hk' Hk N). exists []. now rewrite app_nil_r.
    - intros q r Eq _ _ El. apply app_inv_head in El. destruct G as [_ G]. apply (G k' k g f Hk' Hk N). exists r. now rewrite El. }
  assert (OWN : text_at d2 (cwd ++ f_path f) = write_at (text_at d (cwd ++ f_path f)) (fw_start w) (firstn n (fw_piece w))).
  { unfold text_at. rewrite S2. reflexivity. }
  split.
  - intros k' g j b Hk' H. destruct (Nat.eq_dec k' k) as [->|N]; [|rewrite (OTH k' g Hk' N) in H; auto].
    rewrite Hk in Hk'. injection Hk' as <-. rewrite OWN in H. destruct (write_at_byte _ _ _ _ _ H) as [[J X]|[X|X]]; [|auto|auto].
    left. rewrite firstn_length in J. rewrite nth_error_firstn_lt in X by lia. rewrite RW in X by lia.
    unfold file_content. rewrite nth_error_range by (unfold lenN in *; lia). rewrite <- X. f_equal. lia.
  - intros k' g Hk'. destruct (Nat.eq_dec k' k) as [->|N]; [|rewrite (OTH k' g Hk' N); lia].
    rewrite Hk in Hk'. injection Hk' as <-. rewrite OWN. pose proof (write_at_length (text_at d (cwd ++ f_path f)) (fw_start w) (firstn n (fw_piece w))) as L.
    unfold lenN in L. destruct (firstn n (fw_piece w)); lia.
Qed.
Lemma gap_interrupted : forall p cwd files plen T d1 d2, total_length files = lenN T -> (lenN T < 2 ^ 64)%N -> (0 < plen)%N -> good_files files ->
  interrupted p cwd files plen T d1 d2 -> accounted cwd files T d1 d2 /\
  forall k f, nth_error files k = Some f -> (List.length (text_at d1 (cwd ++ f_path f)) <= List.length (text_at d2 (cwd ++ f_path f)))%nat.
Proof.
  intros p cwd files plen T d1 d2 TL T64 P G H. induction H as [d|d1 d2 d3 i ws w n H IH Hi E I W|d1 d2 f q r H IH Hf E Nq Nr N].
  - split; [apply accounted_refl|auto].
  - destruct IH as [A L]. destruct (writers_right p files T plen i TL T64 P Hi) as (ws' & E' & F & _).
    assert (ws' = ws) by congruence. subst ws'. rewrite Forall_forall in F. destruct (F w I) as [k RW].
    destruct (gap_write _ _ _ _ _ _ _ _ TL G RW W) as [A2 L2]. split; [exact (accounted_trans _ _ _ _ _ _ A A2 L)|].
    intros k' f' K'. specialize (L k' f' K'). specialize (L2 k' f' K'). lia.
  - destruct IH as [A L]. assert (NF : forall k g, nth_error files k = Some g -> text_at (fs_set d2 (cwd ++ q) NDir) (cwd ++ f_path g) = text_at d2 (cwd ++ f_path g)).
    { intros k' g Hk'. unfold text_at. rewrite fs_set_other; [reflexivity|]. intros Z. apply app_inv_head in Z. apply In_nth_error in Hf as [k Hk].
      destruct G as [_ G]. destruct (Nat.eq_dec k' k) as [->|NN].
      - rewrite Hk in Hk'. injection Hk' as <-. rewrite Z in E. rewrite <- (app_nil_r (f_path f)) in E at 1. apply app_inv_head in E. auto.
      - apply (G k' k g f Hk' Hk NN). exists r. congruence. }
    split; [|intros k g Hk; rewrite (NF k g Hk); exact (L k g Hk)].
    intros k g j b Hk X. rewrite (NF k g Hk) in X. exact (A k g j b Hk X).
Qed.
Lemma interrupted_run : forall p cwd files plen T i ws d1 d2 d3, (i < piece_count (lenN T) plen)%N -> interrupted p cwd files plen T d1 d2 ->
  (exists a, get_file_writers p files (torrent_piece T plen i) i plen = Ret (a ++ ws)) -> run_writers cwd d2 ws = Ret d3 -> interrupted p cwd files plen T d1 d3.
Proof.
  intros p cwd files plen T i. induction ws as [|w ws IH]; intros d1 d2 d3 Hi H [a E] R; cbn [run_writers] in R; [injection R as <-; exact H|].
  apply obind_ret in R as (d' & W & R). refine (IH d1 d' d3 Hi _ _ R).
  - refine (int_write _ _ _ _ _ d1 d2 d' i _ w _ H Hi E _ W). apply in_or_app. right. left. reflexivity.
  - exists (a ++ [w]). rewrite <- app_assoc. exact E.
Qed.
Lemma interrupted_pieces : forall p cwd files plen T order d1 d2 d3, Forall (fun i => i < piece_count (lenN T) plen)%N order ->
  interrupted p cwd files plen T d1 d2 -> write_pieces p cwd files plen T order d2 = Ret d3 -> interrupted p cwd files plen T d1 d3.
Proof.
  intros p cwd files plen T. induction order as [|i order IH]; intros d1 d2 d3 F H R; cbn [write_pieces] in R; [injection R as <-; exact H|].
  apply obind_ret in R as (d' & W & R). inversion F as [|? ? Fi Fr]. subst. refine (IH d1 d' d3 Fr _ R). unfold write in W. apply obind_ret in W as (ws & GW & W).
  refine (interrupted_run _ _ _ _ _ i ws d1 d2 d' Fi H _ W). exists []. exact GW.
Qed.
Lemma gap_system : forall sha1 p cwd ih d s i files T, reached sha1 p cwd ih d s ->
  ta_info (sy_actor s) = Some i -> describes sha1 i files T -> disk_ready cwd files d ->
  collision sha1 (i_piece_length i) T s \/ accounted cwd files T d (sy_disk s).
Proof.
  intros sha1 p cwd ih d s i files T R EI DE DR.
  destruct (disk_inv _ _ _ _ _ _ R i files T EI DE DR) as [C|(done & E & WD & WP)]; [auto|]. right.
  pose proof (inv_reached _ _ _ _ _ _ R) as I. unfold inv in I. rewrite EI in I.
  destruct I as (D & W5 & n & fs & q & lost & PO & GF & EP & PM & LW & NI & II & FQ0 & FM0 & FR & FT).
  pose proof (describes_count sha1 p i files T n DE PO) as EN.
  assert (DE' := DE). destruct DE' as (GF' & TL & L64 & PP & GD & HS).
  assert (FD : Forall (fun x => x < piece_count (lenN T) (i_piece_length i))%N (map rd_idx done)).
  { rewrite <- EN. apply Forall_forall. intros x X. apply in_map_iff in X as (y & <- & Y).
    rewrite Forall_forall in FR. apply FR. rewrite E. apply in_or_app. auto. }
  apply (gap_interrupted p cwd files (i_piece_length i) T d (sy_disk s) TL L64 PP GD).
  exact (interrupted_pieces _ _ _ _ _ _ _ _ _ FD (int_nothing _ _ _ _ _ d) WP).
Qed.
Lemma gap_c26 : forall p cwd files plen T d1 d2, total_length files = lenN T -> (lenN T < 2 ^ 64)%N -> (0 < plen)%N -> good_files files ->
  interrupted p cwd files plen T d1 d2 -> accounted cwd files T d1 d2.
Proof. intros p cwd files plen T d1 d2 A B C D E. exact (proj1 (gap_interrupted _ _ _ _ _ _ _ A B C D E)). Qed.
