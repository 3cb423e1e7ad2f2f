(** ProofAnswers: proofs for property C82, the piece and the metadata *)
From Verif Require Import Base ModelBencode ModelMessages ModelTorrent ModelTracker ModelStream ModelPeer ModelLive
  SpecBencode SpecTorrent SpecMessages SpecStream SpecWriter SpecPieces SpecPeer SpecSession SpecLive
  ProofBase ProofBencode ProofBencode2 ProofTorrent ProofMessages ProofPieces ProofStream ProofPeer ProofSession ProofLive ProofServe.

(** ** The blocks of some bytes *)
Lemma chunks_from : forall (l : bytes) k m j, (List.length l <= (j + m) * k)%nat ->
  flat_map (fun n => firstn k (skipn (n * k) l)) (seq j m) = skipn (j * k) l.
Proof.
  intros l k. induction m as [|m IH]; intros j L.
  - cbn [seq flat_map]. symmetry. apply skipn_all2. lia.
  - cbn [seq flat_map]. rewrite IH by lia. replace (S j * k)%nat with (j * k + k)%nat by lia. rewrite <- skipn_add. apply firstn_skipn.
Qed.
(** Parts of 16384 bytes or, at the end, of as many as there are. *)
Lemma parts_all : forall (l : bytes) (len : N -> N), (forall n, (n < piece_count (lenN l) 16384)%N -> len n = 16384%N \/ (lenN l <= n * 16384 + len n /\ len n <= 16384)%N) ->
  from_block (piece_count (lenN l) 16384) (fun n => part l (n * 16384) (len n)) 0 = l.
Proof.
  intros l len HL. unfold from_block. change (N.to_nat 0) with O. rewrite Nat.sub_0_r. set (c := piece_count (lenN l) 16384) in *.
  transitivity (flat_map (fun n => firstn (N.to_nat 16384) (skipn (n * N.to_nat 16384) l)) (seq 0 (N.to_nat c))).
  - rewrite !flat_map_concat_map, map_map. f_equal. apply map_ext_in. intros n I. apply in_seq in I. unfold part.
    replace (N.to_nat (N.of_nat n * 16384)) with (n * N.to_nat 16384)%nat by lia.
    destruct (HL (N.of_nat n) ltac:(lia)) as [->|[H1 H2]]; [reflexivity|].
    rewrite !firstn_all2; [reflexivity|rewrite skipn_length; unfold lenN in *; lia..].
  - rewrite chunks_from; [reflexivity|]. destruct (count_bounds (lenN l) 16384 ltac:(lia)) as (C1 & _). fold c in C1. unfold lenN in *. lia.
Qed.

(** ** A request for a block *)
Definition block_body (idx n len : N) : bytes := big_endian 4 idx ++ big_endian 4 (n * 16384) ++ big_endian 4 len.
Lemma block_fields : forall idx n len, (idx < 2 ^ 32)%N -> (n * 16384 < 2 ^ 32)%N -> (len < 2 ^ 32)%N ->
  let b := block_body idx n len in
  lenN b = 12%N /\ big_endian_value (firstn 4 b) = idx /\ big_endian_value (firstn 4 (skipn 4 b)) = (n * 16384)%N /\
  big_endian_value (skipn 8 b) = len /\ firstn 8 b = big_endian 4 idx ++ big_endian 4 (n * 16384).
Proof.
  intros idx n len H1 H2 H3 b. unfold b, block_body.
  destruct (front_back (big_endian 4 idx) (big_endian 4 (n * 16384) ++ big_endian 4 len) 4 (be_length _ _)) as [A1 A2].
  destruct (front_back (big_endian 4 (n * 16384)) (big_endian 4 len) 4 (be_length _ _)) as [B1 B2].
  rewrite A1, A2, B1. split; [unfold lenN; rewrite !app_length, !be_length; reflexivity|].
  rewrite !be_value by assumption. split; [reflexivity|]. split; [reflexivity|].
  assert (E8 : List.length (big_endian 4 idx ++ big_endian 4 (n * 16384)) = 8%nat) by (rewrite app_length, !be_length; reflexivity).
  destruct (front_back (big_endian 4 idx ++ big_endian 4 (n * 16384)) (big_endian 4 len) 8 E8) as [C1 C2]. rewrite app_assoc, C1, C2.
  rewrite be_value by assumption. auto.
Qed.

Section Piece.
  Variable v : server.
  Variables (p : profile) (plen idx total : N).
  Hypothesis plen_pos : (0 < plen)%N.
  Hypothesis idx_in : (idx < piece_count total plen)%N.
  Hypothesis sum64 : (total + plen <= 2 ^ 64)%N.
  Hypothesis idx32 : (idx < 2 ^ 32)%N.
  Hypothesis plen32 : (plen < 2 ^ 32)%N.
  Hypothesis have : lenN (sd_piece v idx) = N.min plen (total - idx * plen).
  Hypothesis ready : welcoming some_size v.
  Hypothesis no : no_blocks v.

  Notation L := (lenN (sd_piece v idx)).
  Notation cap := (piece_count L 16384).
  Let len n := N.min (total - idx * plen - n * 16384) 16384.
  Let blk n : raw := (7%N, (big_endian 4 idx ++ big_endian 4 (n * 16384)) ++ part (sd_piece v idx) (n * 16384) (len n)).
  Let body n := block_body idx n (len n).
  Let delay n := sd_delay v (6%N, body n).

  Lemma piece_pos : (0 < L)%N /\ (L < 2 ^ 32)%N /\ (idx * plen < total)%N.
  Proof. destruct (count_bounds total plen plen_pos) as (_ & _ & B3). specialize (B3 idx idx_in). rewrite have. lia. Qed.
  Lemma cap_bounds : (0 < cap)%N /\ forall n, (n < cap)%N -> (n * 16384 < L)%N.
  Proof.
    pose proof piece_pos as PP. destruct (count_bounds L 16384 ltac:(lia)) as (C1 & _ & C3). split; [nia|exact C3].
  Qed.

  Lemma asks : forall x n, st_wsched (p_stream x) = [] -> (n < cap)%N ->
    next_block p 16384 idx total plen x n = Ret (after_sending x (frame 6 (body n))) /\
    forall r, sv_heard r = [] -> sv_greeted r = true ->
      server_hears v r (frame 6 (body n)) = {| sv_heard := []; sv_greeted := true;
        sv_owes := sv_owes r ++ encoded v (if (n * 16384 + len n <=? L)%N then [(delay n, blk n)] else []) |}.
  Proof.
    intros x n W LN. pose proof piece_pos as PP. destruct cap_bounds as [_ CB]. specialize (CB n LN).
    split.
    - unfold next_block. rewrite block_req by (try assumption; rewrite <- have; exact LN). cbn [obind].
      rewrite send_ok by exact W. rewrite c16_request by lia. reflexivity.
    - intros r H G. destruct (block_fields idx n (len n) idx32 ltac:(lia) ltac:(unfold len; lia)) as (F1 & F2 & F3 & F4 & F5).
      fold (body n) in *. rewrite (understands_frame some_size (fun _ _ h => h)) by (try assumption; rewrite F1; reflexivity). f_equal. f_equal. f_equal.
      cbn [answer]. rewrite F1, F2, F3, F4, F5. change (12 =? 12)%N with true.
      replace (1 <=? len n)%N with true by (symmetry; apply N.leb_le; unfold len; rewrite have in CB; lia). cbn [andb]. reflexivity.
  Qed.
  Lemma block_ok : forall n, (n < cap)%N -> fine some_size (blk n) /\
    forall m, parsed (blk n) m -> is_request_message m = true /\ get_content_data m = part (sd_piece v idx) (n * 16384) (len n).
  Proof.
    intros n LN. assert (LB : List.length (big_endian 4 idx ++ big_endian 4 (n * 16384)) = 8%nat) by (rewrite app_length, !be_length; reflexivity). split.
    - split.
      + split; [discriminate|]. split; [apply parsed_block; rewrite app_length, LB; lia|].
        intros m k e (l & P) S. cbn [fst snd blk] in P. destruct (c17_content _ _ _ _ P) as (_ & C6 & _).
        unfold states_size in S. destruct (msg_content m) eqn:E; try discriminate.
        specialize (C6 (or_intror eq_refl)). destruct C6 as (? & C6 & _). congruence.
      + unfold short_body, lenN. cbn [blk snd]. rewrite app_length, LB. unfold part. rewrite firstn_length. unfold len. lia.
    - intros m P. destruct (block_message _ _ _ P) as (B1 & B2 & _). assert (F : is_request_message m = true) by (apply B1; right; reflexivity).
      split; [exact F|]. rewrite (B2 F). apply (front_back _ _ 8 LB).
  Qed.

  Lemma opening_fine : forall w, In w (map snd (opening v)) -> fine some_size w.
  Proof. intros w I. apply in_map_iff in I as ([q r] & <- & I). exact (we_behaves _ _ ready q r I). Qed.
  Lemma opening_other : forall w m, In w (map snd (opening v)) -> parsed w m -> is_request_message m = false.
  Proof.
    intros w m I P. apply in_map_iff in I as ([q [id b]] & <- & I). destruct (no q id b I) as [N6 N7].
    destruct (block_message _ _ _ P) as (B1 & _). destruct (is_request_message m); [|reflexivity]. destruct (proj1 B1 eq_refl); contradiction.
  Qed.

  (** The exchange, when blocks below [good] lie within the piece and block [good] does not. *)
  Lemma piece_exchange : forall good fuel pid, List.length (sd_ih v) = 20%nat -> List.length pid = 20%nat -> (good <= cap)%N ->
    (forall n, (n < good)%N -> n * 16384 + len n <= L)%N -> ((good < cap)%N -> (L < good * 16384 + len good)%N) ->
    (11 + 10 * N.to_nat good + 121 * N.to_nat (cap - good) <= fuel)%nat ->
    exists x r y r1, init_peer_l serving (server_hears v) server_says (peer_new pid (fresh []) (sd_ih v)) newly = Ret (Ok tt, x, r) /\
      download_block_l serving (server_hears v) server_says p fuel plen idx total x r =
      Ret (if (good =? cap)%N then Ok (from_block cap (fun n => part (sd_piece v idx) (n * 16384) (len n)) 0) else Err Idle, y, r1).
  Proof.
    intros good fuel pid LI LP GC IN OUT LF. pose proof piece_pos as PP. destruct cap_bounds as [C0 CB].
    destruct (live_init_ok some_size ltac:(unfold some_size; auto) v (we_cuts _ _ ready) [] pid eq_refl ready LI LP) as (x & r & A & Q & E & T & CH & SZ & FQ & (pre & EP) & LA).
    exists x, r. fold (opening v) in EP.
    assert (SUB : forall w, In w (A ++ map snd Q) -> In w (map snd (opening v))) by (intros w I; rewrite EP; apply in_or_app; right; exact I).
    assert (LH : (List.length (A ++ map snd Q) <= 10)%nat).
    { rewrite app_length, map_length. assert (LQ : (List.length Q <= attempts_for Q)%nat).
      { clear. induction Q as [|q Q IH]; [cbn; lia|]. rewrite attempts_cons. cbn [List.length]. lia. } unfold raw in *. lia. }
    destruct (live_execute_ok some_size (fun _ _ h => h) v (we_cuts _ _ ready) is_request_message (next_block p 16384 idx total plen) cap good GC blk
      (fun n => part (sd_piece v idx) (n * 16384) (len n)) delay) with (fuel := fuel) (x := x) (r := r) (A := A) (Q := Q) (b := buffer_new cap) (idle := 0%N) (H := A ++ map snd Q)
      as (y & r1 & EX); auto.
    - intros n. apply (we_answers _ _ ready).
    - intros z n W _ LN. destruct (asks z n W ltac:(lia)) as [A1 A2]. exists (frame 6 (body n)). split; [exact A1|].
      intros r' H G. rewrite (A2 r' H G). specialize (IN n LN). apply N.leb_le in IN. rewrite IN. reflexivity.
    - intros z W _ LG. destruct (asks z good W LG) as [A1 A2]. exists (frame 6 (body good)). split; [exact A1|].
      intros r' H G. rewrite (A2 r' H G). specialize (OUT LG). apply N.leb_gt in OUT. rewrite OUT. reflexivity.
    - intros n LN. apply block_ok. lia.
    - intros w I. apply opening_fine, SUB, I.
    - intros w m I. apply opening_other, SUB, I.
    - right. cbn [buffer_new mb_buffer mb_expected_size]. change (lenN []) with 0%N. split; [lia|]. split; [reflexivity|]. split; [reflexivity|].
      split; [reflexivity|]. change (N.to_nat 0) with O. unfold raw in *. lia.
    - exists y, r1. split; [exact E|]. unfold download_block_l. rewrite real_length by auto. cbn [obind]. rewrite <- have. unfold BLOCK_SIZE.
      rewrite step_by_count by lia. cbn [obind]. exact EX.
  Qed.
End Piece.

(** The blocks of a piece lie within it if the pieces consist of whole blocks or it is the last one. *)
Lemma c82_piece : forall sha1 p fuel v pid ep i idx total,
  parse_socket_addr ep <> None -> get_total_length p i = Ret total ->
  (0 < i_piece_length i)%N -> (idx < piece_count total (i_piece_length i))%N -> (total + i_piece_length i <= 2 ^ 64)%N ->
  (idx < 2 ^ 32)%N -> (i_piece_length i < 2 ^ 32)%N -> (forall b, List.length (sha1 b) = 20%nat) -> List.length pid = 20%nat ->
  (i_piece_length i mod 16384 = 0 \/ idx + 1 = piece_count total (i_piece_length i))%N ->
  sd_ih v = compute_info_hash sha1 i -> welcoming some_size v -> no_blocks v ->
  lenN (sd_piece v idx) = N.min (i_piece_length i) (total - idx * i_piece_length i) ->
  (20 * N.to_nat idx + 20 <= List.length (i_pieces i))%nat ->
  sha1 (sd_piece v idx) = firstn 20 (skipn (20 * N.to_nat idx) (i_pieces i)) ->
  (11 + 10 * N.to_nat (piece_count (lenN (sd_piece v idx)) 16384) <= fuel)%nat ->
  download_l serving (server_hears v) server_says sha1 p fuel [] newly pid ep i idx = Ret (Ok (sd_piece v idx)).
Proof.
  intros sha1 p fuel v pid ep i idx total EP GT P I O I32 P32 HL LP AL IH WE NB HV LS HS LF. unfold download_l, connect.
  destruct (parse_socket_addr ep); [|congruence]. cbn [obind orbind].
  set (plen := i_piece_length i) in *. destruct (count_bounds total plen P) as (C1 & C2 & C3). pose proof (C3 idx I) as C4.
  assert (LI : List.length (sd_ih v) = 20%nat) by (rewrite IH; apply HL).
  set (c := piece_count (lenN (sd_piece v idx)) 16384) in *. destruct (count_bounds (lenN (sd_piece v idx)) 16384 ltac:(lia)) as (_ & _ & D3). fold c in D3.
  assert (IN : forall n, (n < c)%N -> (n * 16384 + N.min (total - idx * plen - n * 16384) 16384 <= lenN (sd_piece v idx))%N).
  { intros n LN. specialize (D3 n LN). rewrite HV in *. destruct AL as [AL|AL]; [|assert (total <= idx * plen + plen)%N by nia; lia].
    apply N.mod_divide in AL; [|lia]. destruct AL as [k AL]. set (T := (total - idx * plen)%N) in *. clearbody T. rewrite AL in *. lia. }
  destruct (piece_exchange v p plen idx total P I O I32 P32 HV WE NB c fuel pid LI LP) as (x & r & y & r1 & E1 & E2); auto; try (fold c; lia).
  fold c in E2. rewrite N.eqb_refl in E2. rewrite <- IH, E1. cbn [obind]. rewrite GT. cbn [obind]. unfold get_piece_length. fold plen. rewrite E2. cbn [obind].
  unfold c. rewrite parts_all.
  - unfold verify_piece. rewrite get_piece_spec. destruct (Nat.leb_spec (20 * N.to_nat idx + 20) (List.length (i_pieces i))); [|lia].
    cbn [obind]. rewrite HS, bytes_eqb_refl. reflexivity.
  - intros n LN. specialize (D3 n LN). specialize (IN n LN). rewrite HV in *. lia.
Qed.

(** Otherwise the last block that is asked for reaches beyond the piece. *)
Lemma c82_unaligned : forall sha1 p fuel v pid ep i idx total,
  parse_socket_addr ep <> None -> get_total_length p i = Ret total ->
  (0 < i_piece_length i)%N -> (idx + 1 < piece_count total (i_piece_length i))%N -> (total + i_piece_length i <= 2 ^ 64)%N ->
  (idx < 2 ^ 32)%N -> (i_piece_length i < 2 ^ 32)%N -> (forall b, List.length (sha1 b) = 20%nat) -> List.length pid = 20%nat ->
  (i_piece_length i mod 16384 <> 0)%N ->
  sd_ih v = compute_info_hash sha1 i -> welcoming some_size v -> no_blocks v ->
  lenN (sd_piece v idx) = i_piece_length i ->
  (132 + 10 * N.to_nat (piece_count (lenN (sd_piece v idx)) 16384) <= fuel)%nat ->
  download_l serving (server_hears v) server_says sha1 p fuel [] newly pid ep i idx = Ret (Err (MEPieceDownloadFailure Idle)).
Proof.
  intros sha1 p fuel v pid ep i idx total EP GT P I O I32 P32 HL LP AL IH WE NB HV LF. unfold download_l, connect.
  destruct (parse_socket_addr ep); [|congruence]. cbn [obind orbind].
  set (plen := i_piece_length i) in *. destruct (count_bounds total plen P) as (C1 & C2 & C3). pose proof (C3 idx ltac:(lia)) as C4. pose proof (C3 (idx + 1)%N I) as C5.
  assert (LI : List.length (sd_ih v) = 20%nat) by (rewrite IH; apply HL).
  assert (HV' : lenN (sd_piece v idx) = N.min plen (total - idx * plen)) by (rewrite HV; lia).
  set (c := piece_count (lenN (sd_piece v idx)) 16384) in *.
  destruct (count_bounds (lenN (sd_piece v idx)) 16384 ltac:(lia)) as (D1 & D2 & D3). fold c in D1, D2, D3.
  assert (C0 : (0 < c)%N) by (rewrite HV in *; nia).
  assert (NE : (c * 16384 <> plen)%N) by (intros E; apply AL; rewrite <- E; apply N.mod_mul; lia).
  assert (IN : forall n, (n < c - 1)%N -> (n * 16384 + N.min (total - idx * plen - n * 16384) 16384 <= lenN (sd_piece v idx))%N).
  { intros n LN. rewrite HV in *. specialize (D3 (n + 1)%N ltac:(lia)). lia. }
  assert (OUT : (c - 1 < c)%N -> (lenN (sd_piece v idx) < (c - 1) * 16384 + N.min (total - idx * plen - (c - 1) * 16384) 16384)%N).
  { intros _. specialize (D3 (c - 1)%N ltac:(lia)). rewrite HV in *. lia. }
  destruct (piece_exchange v p plen idx total P ltac:(lia) O I32 P32 HV' WE NB (c - 1) fuel pid LI LP ltac:(fold c; lia) IN OUT ltac:(fold c; lia))
    as (x & r & y & r1 & E1 & E2).
  fold c in E2. replace (c - 1 =? c)%N with false in E2 by (symmetry; apply N.eqb_neq; lia).
  rewrite <- IH, E1. cbn [obind]. rewrite GT. cbn [obind]. unfold get_piece_length. fold plen. rewrite E2. reflexivity.
Qed.

(** ** A request for metadata *)
Lemma answer_metadata : forall v c t, (0 < c)%N -> answer v (20%N, c :: t) =
  match find (fun k => bytes_eqb (c :: t) (sd_number v :: benc (metadata_request k)))
          (map N.of_nat (seq 0 (N.to_nat (piece_count (lenN (sd_metadata v)) 16384)))) with
  | Some k => [(sd_delay v (20%N, c :: t), metadata_reply v k)]
  | None => []
  end.
Proof. intros v [|c] t L; [lia|reflexivity]. Qed.

Section Metadata.
  Variable v : server.
  Notation n := (lenN (sd_metadata v)).
  Notation num := (sd_number v).
  Notation cap := (piece_count n 16384).
  Hypothesis n_pos : (0 < n)%N.
  Hypothesis n_64 : (n < 2 ^ 64)%N.
  Hypothesis num_pos : (0 < num)%N.
  Hypothesis ready : welcoming (under_number n num) v.
  Hypothesis no : no_metadata v.

  Lemma number_nonzero : forall k e, under_number n num k e -> k <> 0%N.
  Proof. intros k e [-> _]. lia. Qed.
  Let body k := num :: benc (metadata_request k).
  Let delay k := sd_delay v (20%N, body k).

  Lemma request_injective : forall j k, (j < 2 ^ 64)%N -> (k < 2 ^ 64)%N -> body j = body k -> j = k.
  Proof.
    intros j k Lj Lk E. apply (f_equal (@tl N)) in E. unfold body in E. cbn [tl] in E. rewrite !metadata_request_bytes in E. apply app_inv_head, app_inv_tail in E.
    exact (decimal_inj _ _ E).
  Qed.
  Lemma finds : forall k, (k < cap)%N -> (cap < 2 ^ 64)%N ->
    find (fun j => bytes_eqb (body k) (body j)) (map N.of_nat (seq 0 (N.to_nat cap))) = Some k.
  Proof.
    intros k L C. destruct (find _ _) as [j|] eqn:E.
    - apply find_some in E as [I E]. apply bytes_eqb_eq in E. apply in_map_iff in I as (m & <- & I). apply in_seq in I.
      apply request_injective in E; [congruence|lia..].
    - exfalso. enough (F : bytes_eqb (body k) (body k) = false) by (rewrite bytes_eqb_refl in F; discriminate). apply (find_none _ _ E k).
      apply in_map_iff. exists (N.to_nat k). split; [lia|]. apply in_seq. lia.
  Qed.
  Lemma cap_64 : (0 < cap)%N /\ (cap <= n)%N /\ forall k, (k < cap)%N -> (k * 16384 < n)%N.
  Proof. destruct (count_bounds n 16384 ltac:(lia)) as (C1 & _ & C3). assert (C0 : (0 < cap)%N) by nia. split; [exact C0|]. split; [specialize (C3 (cap - 1)%N); lia|exact C3]. Qed.
  Lemma asks_metadata : forall x k, st_wsched (p_stream x) = [] -> sized (under_number n num) x -> (k < cap)%N ->
    next_piece x k = Ret (after_sending x (frame 20 (body k))) /\
    forall r, sv_heard r = [] -> sv_greeted r = true ->
      server_hears v r (frame 20 (body k)) = {| sv_heard := []; sv_greeted := true; sv_owes := sv_owes r ++ encoded v [(delay k, metadata_reply v k)] |}.
  Proof.
    intros x k W [_ SX] L. destruct cap_64 as (C0 & C1 & C2). split.
    - unfold next_piece, get_extension_id_by_name. rewrite SX. cbn [obind]. destruct (c15 num k ltac:(lia)) as (m & -> & Em). cbn [obind].
      rewrite send_ok by exact W. rewrite Em. reflexivity.
    - intros r H G. rewrite (understands_frame _ number_nonzero).
      + f_equal. f_equal. f_equal. unfold body at 1. rewrite answer_metadata by exact num_pos. 
        pose proof (finds k L ltac:(lia)) as F. unfold body in F. rewrite F. reflexivity.
      + exact H.
      + exact G.
      + pose proof (decimal_len_bound k ltac:(lia)) as D. unfold lenN in *. unfold body. cbn [List.length]. rewrite metadata_request_bytes, !app_length.
        change (List.length (s2b "d8:msg_typei0e5:piecei")) with 22%nat. change (List.length (s2b "ee")) with 2%nat. lia.
  Qed.
  Lemma reply_ok : forall k, (k < cap)%N -> fine (under_number n num) (metadata_reply v k) /\
    forall m, parsed (metadata_reply v k) m -> is_extension_data_message m = true /\ get_content_data m = part (sd_metadata v) (k * 16384) 16384.
  Proof.
    intros k L. destruct cap_64 as (C0 & C1 & C2). destruct (data_block n 0 ltac:(lia) ltac:(lia) k (part (sd_metadata v) (16384 * k) 16384) ltac:(lia)) as (m & e & P & C & MT & DA & S).
    split.
    - split.
      + split; [discriminate|]. split; [exists m; exact P|]. intros m' k' e' P' S'. destruct (parsed_unique _ _ _ P P') as [E _].
        unfold states_size in *. rewrite <- E in S'. congruence.
      + pose proof (decimal_len_bound k ltac:(lia)) as DK. pose proof (decimal_len_bound n n_64) as DN.
        unfold short_body, lenN in *. unfold metadata_reply. cbn [extension_message snd benc map List.concat fst app]. repeat (rewrite ?app_length; cbn [List.length]).
        unfold part. rewrite firstn_length.
        change (List.length (bstr (s2b "msg_type"))) with 10%nat. change (List.length (bstr (s2b "piece"))) with 7%nat.
        change (List.length (bstr (s2b "total_size"))) with 13%nat. change (List.length (decimal 1)) with 1%nat. change (List.length (s2b "d")) with 1%nat. change (List.length (s2b "e")) with 1%nat. change (List.length (s2b "i")) with 1%nat.
        unfold lenN in *. lia.
    - intros m' P'. destruct (parsed_unique _ _ _ P P') as [E _]. unfold is_extension_data_message, get_content_data. rewrite <- E, C.
      split; [unfold ex_is_data; rewrite MT; reflexivity|]. rewrite DA. f_equal. lia.
  Qed.
  Lemma opening_no_data : forall w m, In w (map snd (opening v)) -> parsed w m -> is_extension_data_message m = false.
  Proof.
    intros w m I P. apply in_map_iff in I as ([q r] & <- & I). cbn [snd] in P. unfold is_extension_data_message. destruct (msg_content m) eqn:E; try reflexivity.
    specialize (no q r m _ I P E). unfold ex_is_data. destruct (ex_msg_type _) as [k|]; [|reflexivity]. apply N.eqb_neq. congruence.
  Qed.

  Lemma c82_metadata : forall fuel pid ep i, parse_socket_addr ep <> None -> List.length (sd_ih v) = 20%nat -> List.length pid = 20%nat ->
    info_from_bytes (sd_metadata v) = Ret (Ok i) -> (11 + 10 * N.to_nat cap <= fuel)%nat ->
    get_info_l serving (server_hears v) server_says fuel [] newly pid (sd_ih v) ep = Ret (Ok i).
  Proof.
    intros fuel pid ep i EP LI LP II LF. unfold get_info_l, connect. destruct (parse_socket_addr ep); [|congruence]. cbn [obind orbind].
    destruct cap_64 as (C0 & C1 & C2).
    destruct (live_init_ok _ number_nonzero v (we_cuts _ _ ready) [] pid eq_refl ready LI LP) as (x & r & A & Q & E & T & CH & SZ & FQ & (pre & EQ) & LA).
    rewrite E. cbn [obind]. unfold download_info_l, get_metadata_size, INFO_PIECE_SIZE. destruct SZ as [S1 S2]. rewrite S1.
    rewrite step_by_count by lia. cbn [obind].
    assert (SUB : forall w, In w (A ++ map snd Q) -> In w (map snd (opening v))) by (intros w I; rewrite EQ; apply in_or_app; right; exact I).
    assert (LH : (List.length (A ++ map snd Q) <= 10)%nat).
    { rewrite app_length, map_length. assert (LQ : (List.length Q <= attempts_for Q)%nat).
      { clear. induction Q as [|q Q IH]; [cbn; lia|]. rewrite attempts_cons. cbn [List.length]. lia. } unfold raw in *. lia. }
    destruct (live_execute_ok _ number_nonzero v (we_cuts _ _ ready) is_extension_data_message next_piece cap cap (N.le_refl _) (metadata_reply v)
      (fun k => part (sd_metadata v) (k * 16384) 16384) delay) with (fuel := fuel) (x := x) (r := r) (A := A) (Q := Q) (b := buffer_new cap) (idle := 0%N) (H := A ++ map snd Q)
      as (y & r1 & EX); auto.
    - intros k. apply (we_answers _ _ ready).
    - intros z k W SX L. destruct (asks_metadata z k W SX L) as [A1 A2]. eauto.
    - intros z W SX L. lia.
    - exact reply_ok.
    - intros w I. specialize (SUB w I). apply in_map_iff in SUB as ([q r'] & <- & SUB). exact (we_behaves _ _ ready q r' SUB).
    - split; assumption.
    - intros w m I. apply opening_no_data, SUB, I.
    - right. cbn [buffer_new mb_buffer mb_expected_size]. change (lenN []) with 0%N. split; [lia|]. split; [reflexivity|]. split; [reflexivity|].
      split; [reflexivity|]. change (N.to_nat 0) with O. unfold raw in *. lia.
    - rewrite EX, N.eqb_refl. cbn [obind buffer_new mb_buffer flat_map app]. change (lenN []) with 0%N. rewrite (parts_all (sd_metadata v) (fun _ => 16384%N)) by (intros; left; reflexivity).
      rewrite II. reflexivity.
  Qed.
End Metadata.

Lemma c82_schedules : forall (R : Type) (hear : R -> bytes -> R) (say : R -> tick * R),
  (forall sha1 p fuel ws r pid ep i idx, exists l, forall tail,
     download_l R hear say sha1 p fuel ws r pid ep i idx = download sha1 p fuel (Some (scheduled ws (l ++ tail))) pid ep i idx) /\
  (forall fuel ws r pid ih ep, exists l, forall tail,
     get_info_l R hear say fuel ws r pid ih ep = get_info fuel (Some (scheduled ws (l ++ tail))) pid ih ep).
Proof. intros R hear say. split; [exact (live_download R hear say)|exact (live_get_info R hear say)]. Qed.
