(** ProofExact: lemmas for PropExact *)
From Verif Require Import Base Utf8 ModelBencode ModelTorrent ModelWriter ModelTracker ModelStream ModelPeer ModelActors ModelCache
  ModelMain SpecBencode SpecMessages SpecTorrent SpecTracker SpecWriter SpecStream SpecMain SpecExact ProofBase ProofTorrent ProofWriter
  ProofTracker ProofSystem ProofMain ProofDisk.

(** ** C18 *)
Lemma magnet_reads : forall p m, firstn 8 m = s2b "magnet:?" -> nth_error m 60 = Some 38%N ->
  parse_magnet p m = (r <- hex_decode p (firstn 40 (skipn 20 m)) ;; Ret (Ok r)).
Proof.
  intros p m H Eb. assert (L : (60 < List.length m)%nat) by (apply nth_error_Some; congruence).
  unfold parse_magnet, verify_info_hash.
  rewrite (proj2 (N.ltb_ge _ _)) by (unfold lenN; lia). unfold slice at 1.
  rewrite (proj2 (Nat.leb_le 8 _)) by lia. cbn [Nat.leb andb obind Nat.sub]. change (skipn 0 m) with m.
  rewrite H, bytes_eqb_refl. cbn [negb]. unfold parse_info_hash, index. rewrite Eb. cbn [obind].
  rewrite N.eqb_refl. unfold slice.
  rewrite (proj2 (Nat.leb_le 20 60)) by lia. rewrite (proj2 (Nat.leb_le 60 _)) by lia.
  cbn [andb obind]. now replace (60 - 20)%nat with 40%nat by lia.
Qed.

Lemma digit_exact : forall b, byte_ok b ->
  byte_to_hex Release b = Ret (digit_of b) /\ byte_to_hex Debug b = if (b <? 48)%N then Panic else Ret (digit_of b).
Proof.
  intros b B. unfold byte_ok in B. unfold byte_to_hex, is_ascii_uppercase, is_ascii_lowercase, u8sub, digit_of.
  destruct (N.leb_spec 65 b), (N.leb_spec b 90), (N.leb_spec 97 b), (N.leb_spec b 122), (N.ltb_spec b 48), (N.leb_spec 55 b), (N.leb_spec 87 b), (N.leb_spec 48 b);
    cbn [andb]; try lia; split; try reflexivity; f_equal; try lia.
Qed.

Lemma decode_exact : forall n s, List.length s = (2 * n)%nat -> bytes_ok s ->
  hex_decode Release s = Ret (read_pairs s) /\
  hex_decode Debug s = if existsb (fun b => (b <? 48)%N) s then Panic else Ret (read_pairs s).
Proof.
  induction n as [|n IH]; intros s L B.
  - destruct s; [|cbn in L; lia]. split; reflexivity.
  - destruct s as [|a [|b t]]; cbn [List.length] in L; try lia.
    inversion B as [|? ? Ba B1]; subst. inversion B1 as [|? ? Bb Bt]; subst.
    destruct (IH t) as [IR ID]; [lia|auto|]. destruct (digit_exact a Ba) as [Ra Da], (digit_exact b Bb) as [Rb Db].
    unfold hex_decode in *. rewrite chunks_exact_step by (cbn [List.length]; lia). cbn [firstn skipn omap].
    unfold hex_pair at 1 3. cbn [index nth_error obind]. rewrite Ra, Rb, Da. cbn [obind]. rewrite IR. cbn [obind].
    assert (E : forall h l, N.lor (as_u8 (N.shiftl h 4)) l = N.lor ((16 * h) mod 256) l).
    { intros h l. unfold as_u8. rewrite N.shiftl_mul_pow2. change (2 ^ 4)%N with 16%N. now rewrite (N.mul_comm h). }
    rewrite E. split; [reflexivity|]. cbn [existsb]. destruct (a <? 48)%N; cbn [orb obind]; [reflexivity|].
    rewrite Db. destruct (b <? 48)%N; cbn [orb obind]; [reflexivity|]. rewrite ID, E.
    destruct (existsb _ t); reflexivity.
Qed.

Lemma c18_exact : forall m, bytes_ok m -> firstn 8 m = s2b "magnet:?" -> nth_error m 60 = Some 38%N ->
  let h := firstn 40 (skipn 20 m) in
  parse_magnet Release m = Ret (Ok (read_pairs h)) /\
  ((exists b, In b h /\ (b < 48)%N) -> parse_magnet Debug m = Panic) /\
  (Forall (fun b => 48 <= b)%N h -> parse_magnet Debug m = Ret (Ok (read_pairs h))).
Proof.
  intros m B H E. cbn zeta. rewrite !magnet_reads by auto.
  assert (L : (60 < List.length m)%nat) by (apply nth_error_Some; congruence).
  assert (Bh : bytes_ok (firstn 40 (skipn 20 m))).
  { unfold bytes_ok in *. rewrite Forall_forall in *. intros b I. apply B.
    apply in_slice_nth in I as (k & _ & I). eapply nth_error_In; eauto. }
  destruct (decode_exact 20 (firstn 40 (skipn 20 m))) as [R D]; [rewrite firstn_length, skipn_length; lia|auto|].
  rewrite R, D. split; [reflexivity|]. split.
  - intros (b & I & Lb). rewrite (proj2 (existsb_exists _ _)); [reflexivity|]. exists b. split; [auto|]. now apply N.ltb_lt.
  - intros F. destruct (existsb _ _) eqn:X; [|reflexivity]. apply existsb_exists in X as (b & I & Lb). apply N.ltb_lt in Lb.
    rewrite Forall_forall in F. specialize (F b I). cbn beta in F. lia.
Qed.

(** ** C20 *)
Lemma c20_reachable : forall connects ep, is_reachable connects ep = true <->
  exists a b c d port k, (a < 256 /\ b < 256 /\ c < 256 /\ d < 256 /\ port < 65536)%N /\
    ep = decimal a ++ s2b "." ++ decimal b ++ s2b "." ++ decimal c ++ s2b "." ++ decimal d ++ s2b ":" ++ repeat 48%N k ++ decimal port /\
    connects (a, b, c, d, port) = true.
Proof.
  intros connects ep. unfold is_reachable. destruct (parse_socket_addr ep) as [[[[[a b] c] d] port]|] eqn:E.
  - apply c20_exact in E as E'. destruct E' as (R & k & Ek). split; [intros C; exists a, b, c, d, port, k; auto|].
    intros (a' & b' & c' & d' & port' & k' & R' & Ek' & C).
    assert (P : parse_socket_addr ep = Some (a', b', c', d', port')) by (apply c20_exact; split; [auto|exists k'; auto]).
    congruence.
  - split; [discriminate|]. intros (a' & b' & c' & d' & port' & k' & R' & Ek' & C).
    assert (P : parse_socket_addr ep = Some (a', b', c', d', port')) by (apply c20_exact; split; [auto|exists k'; auto]).
    congruence.
Qed.

(** ** C23 *)
Lemma cut_app : forall c a b, ~ In c a -> cut_at c (a ++ c :: b) = Some (a, b).
Proof.
  induction a as [|x a IH]; intros b N; cbn [cut_at app].
  - now rewrite N.eqb_refl.
  - cbn in N. destruct (N.eqb_spec x c); [exfalso; auto|]. rewrite IH by auto. reflexivity.
Qed.
Lemma split_on_none : forall c a, ~ In c a -> split_on c a = [a].
Proof.
  induction a as [|x a IH]; intros N; cbn [split_on]; [reflexivity|]. cbn in N.
  destruct (N.eqb_spec x c); [exfalso; auto|]. now rewrite IH by auto.
Qed.
Lemma split_on_app : forall c a b, ~ In c a -> split_on c (a ++ c :: b) = a :: split_on c b.
Proof.
  induction a as [|x a IH]; intros b N; cbn [split_on app].
  - now rewrite N.eqb_refl.
  - cbn in N. destruct (N.eqb_spec x c); [exfalso; auto|]. now rewrite IH by auto.
Qed.
Lemma percent_plain : forall s, ~ In 37%N s -> percent_decode s = Some s.
Proof.
  induction s as [|b s IH]; intros N; cbn [percent_decode]; [reflexivity|]. cbn in N.
  destruct (N.eqb_spec b 37); [exfalso; auto|]. now rewrite IH by auto.
Qed.
Lemma alnum_text : forall b, is_alnum b = true <-> (48 <= b <= 57 \/ 65 <= b <= 90 \/ 97 <= b <= 122)%N.
Proof.
  intros b. unfold is_alnum, is_digit. rewrite !orb_true_iff, !andb_true_iff, !N.leb_le. tauto.
Qed.
Lemma c23_peer_id : forall pid, valid_peer_id pid = true <-> peer_id_text pid.
Proof.
  intros pid. unfold valid_peer_id, peer_id_text. rewrite andb_true_iff, Nat.eqb_eq, forallb_forall, Forall_forall.
  split; intros [L A]; (split; [auto|]); intros b I; apply alnum_text; auto.
Qed.
Lemma c23_read : forall base h pid, ~ In 63%N base -> bytes_ok h -> peer_id_text pid ->
  read_query (tcp_request_url base h pid) = Some (base, [Some (s2b "info_hash", h); Some (s2b "peer_id", pid)]).
Proof.
  intros base h pid NB B [L A]. unfold read_query, tcp_request_url.
  change (s2b "?info_hash=" ++ encode_binary h ++ s2b "&peer_id=" ++ pid)
    with (63%N :: (s2b "info_hash=" ++ encode_binary h ++ s2b "&peer_id=" ++ pid)).
  rewrite cut_app by auto. cbn [option_map].
  destruct (c23 h B) as (D & S & _).
  assert (NE : forall c, In c [38; 61]%N -> ~ In c (encode_binary h)).
  { intros c Ic I. rewrite Forall_forall in S. specialize (S c I). unfold safe_char in S.
    destruct Ic as [<-|[<-|[]]]; (destruct S as [S|S]; [lia|cbn in S; intuition discriminate]). }
  assert (NP : forall c, In c [37; 38; 61]%N -> ~ In c pid).
  { intros c Ic I. rewrite Forall_forall in A. specialize (A c I). cbn beta in A.
    destruct Ic as [<-|[<-|[<-|[]]]]; lia. }
  replace (s2b "info_hash=" ++ encode_binary h ++ s2b "&peer_id=" ++ pid)
    with ((s2b "info_hash=" ++ encode_binary h) ++ 38%N :: (s2b "peer_id=" ++ pid)) by (rewrite <- app_assoc; reflexivity).
  rewrite split_on_app.
  2:{ rewrite in_app_iff. intros [I|I]; [cbn in I; intuition discriminate|apply (NE 38%N); cbn; auto]. }
  rewrite split_on_none.
  2:{ rewrite in_app_iff. intros [I|I]; [cbn in I; intuition discriminate|apply (NP 38%N); cbn; auto]. }
  cbn [map]. unfold read_field.
  change (s2b "info_hash=" ++ encode_binary h) with (s2b "info_hash" ++ 61%N :: encode_binary h).
  change (s2b "peer_id=" ++ pid) with (s2b "peer_id" ++ 61%N :: pid).
  rewrite !cut_app by (cbn; intuition discriminate). rewrite D, percent_plain by (apply NP; cbn; auto). reflexivity.
Qed.

(** ** C24: sizes that do not fit into 64 bits *)
Lemma loop_pass : forall p piece fs s acc st o,
  (st + total_length fs < 2 ^ 64)%N -> (o + lenN piece < 2 ^ 64)%N ->
  fp_piece_length s = lenN piece -> fp_offset s = o -> fp_right_file_boundary s = st ->
  fp_start_file_index s = N.max st o -> (st + total_length fs < o + lenN piece)%N ->
  exists ws s', (forall rest, file_writers_loop p piece (fs ++ rest) s acc = file_writers_loop p piece rest s' (acc ++ ws)) /\
    fp_piece_length s' = lenN piece /\ fp_offset s' = o /\ fp_right_file_boundary s' = (st + total_length fs)%N /\
    fp_start_file_index s' = N.max (st + total_length fs) o.
Proof.
  intros p piece. induction fs as [|f t IH]; intros s acc st o T O Hl Ho Hr Hs Hlt.
  - exists [], s. cbn [total_length app]. rewrite N.add_0_r, app_nil_r. auto.
  - cbn [total_length] in *.
    destruct (N.ltb_spec o (st + f_length f)) as [In|Out].
    + match goal with |- context [file_writers_loop p piece _ ?s0 ?a0] =>
      destruct (IH {| fp_piece_length := fp_piece_length s; fp_offset := fp_offset s;
           fp_start_file_index := N.min (st + f_length f) (o + lenN piece); fp_end_file_index := N.min (st + f_length f) (o + lenN piece);
           fp_right_file_boundary := st + f_length f |}
         (acc ++ [{| fw_path := get_path f; fw_start := N.max st o - (st + f_length f - f_length f);
                     fw_end := N.min (st + f_length f) (o + lenN piece) - (st + f_length f - f_length f);
                     fw_piece := range (N.max st o - o) (N.min (st + f_length f) (o + lenN piece) - o) piece |}])%N
         (st + f_length f)%N o) as (ws & s' & E & E1 & E2 & E3 & E4);
        cbn [fp_piece_length fp_offset fp_right_file_boundary fp_start_file_index]; auto; try lia end.
      eexists (_ :: ws), s'. split; [|rewrite N.add_assoc; auto]. intros rest. cbn [app file_writers_loop].
      unfold get_length, update_right_file_boundary. rewrite Hr, uadd_ok by lia.
      cbn [obind]. unfold is_piece_in_file. cbn [fp_offset fp_right_file_boundary]. rewrite Ho.
      rewrite (proj2 (N.ltb_lt o _)) by auto.
      unfold update_end_file_index. cbn [fp_offset fp_piece_length fp_right_file_boundary fp_start_file_index].
      rewrite ?Hl, ?Ho, uadd_ok by auto. cbn [obind].
      unfold get_start_file_index, get_end_file_index, get_start_piece_index, get_end_piece_index, is_piece_finished.
      cbn [fp_offset fp_piece_length fp_right_file_boundary fp_start_file_index fp_end_file_index].
      rewrite ?Hs, ?Ho, ?Hl. rewrite !usub_ok by lia. cbn [obind]. rewrite !usub_ok by lia. cbn [obind].
      rewrite sliceN_ok by lia. cbn [obind]. rewrite uadd_ok by auto. cbn [obind].
      rewrite (proj2 (N.ltb_lt (st + f_length f) _)) by lia. unfold update_start_file_index.
      cbn [fp_offset fp_piece_length fp_right_file_boundary fp_start_file_index fp_end_file_index].
      specialize (E rest). rewrite Hl, Ho, <- app_assoc in E. cbn [app] in E. exact E.
    + destruct (IH {| fp_piece_length := fp_piece_length s; fp_offset := fp_offset s;
           fp_start_file_index := fp_start_file_index s; fp_end_file_index := fp_end_file_index s;
           fp_right_file_boundary := st + f_length f |} acc (st + f_length f)%N o) as (ws & s' & E & E1 & E2 & E3 & E4);
        cbn [fp_piece_length fp_offset fp_right_file_boundary fp_start_file_index]; auto; try lia.
      exists ws, s'. split; [|rewrite N.add_assoc; auto]. intros rest. cbn [app file_writers_loop].
      unfold get_length, update_right_file_boundary. rewrite Hr, uadd_ok by lia.
      cbn [obind]. unfold is_piece_in_file. cbn [fp_offset fp_right_file_boundary]. rewrite Ho.
      rewrite (proj2 (N.ltb_ge o _)) by auto. rewrite <- Ho at 1. apply E.
Qed.

Lemma loop_stop : forall p piece fs s acc st o rest,
  (st + total_length fs < 2 ^ 64)%N -> (o + lenN piece < 2 ^ 64)%N -> (0 < lenN piece)%N ->
  fp_piece_length s = lenN piece -> fp_offset s = o -> fp_right_file_boundary s = st ->
  fp_start_file_index s = N.max st o -> (st < o + lenN piece)%N -> (o + lenN piece <= st + total_length fs)%N ->
  file_writers_loop p piece (fs ++ rest) s acc = file_writers_loop p piece fs s acc.
Proof.
  intros p piece. induction fs as [|f t IH]; intros s acc st o rest T O NE Hl Ho Hr Hs Hlt Hle; cbn [total_length] in *; [lia|].
  cbn [app file_writers_loop]. unfold get_length, update_right_file_boundary. rewrite Hr, uadd_ok by lia.
  cbn [obind]. unfold is_piece_in_file. cbn [fp_offset fp_right_file_boundary]. rewrite Ho.
  destruct (N.ltb_spec o (st + f_length f)) as [In|Out].
  - unfold update_end_file_index. cbn [fp_offset fp_piece_length fp_right_file_boundary fp_start_file_index].
    rewrite ?Hl, ?Ho, uadd_ok by auto. cbn [obind].
    unfold get_start_file_index, get_end_file_index, get_start_piece_index, get_end_piece_index, is_piece_finished.
    cbn [fp_offset fp_piece_length fp_right_file_boundary fp_start_file_index fp_end_file_index].
    rewrite ?Hs, ?Ho, ?Hl. rewrite !usub_ok by lia. cbn [obind]. rewrite !usub_ok by lia. cbn [obind].
    rewrite sliceN_ok by lia. cbn [obind]. rewrite uadd_ok by auto. cbn [obind].
    destruct (N.ltb_spec (st + f_length f) (o + lenN piece)); [|reflexivity].
    apply (IH _ _ (st + f_length f)%N o); cbn [update_start_file_index fp_piece_length fp_offset fp_right_file_boundary fp_start_file_index fp_end_file_index]; auto; lia.
  - apply (IH _ _ (st + f_length f)%N o); cbn [fp_piece_length fp_offset fp_right_file_boundary fp_start_file_index]; auto; lia.
Qed.

Lemma c24_overflow : forall fs f piece idx plen, piece <> [] -> (idx * plen + lenN piece < 2 ^ 64)%N ->
  (total_length fs < 2 ^ 64)%N -> (f_length f < 2 ^ 64)%N -> (2 ^ 64 <= total_length fs + f_length f)%N ->
  ((idx * plen + lenN piece <= total_length fs)%N -> forall p rest,
     get_file_writers p (fs ++ f :: rest) piece idx plen = get_file_writers p fs piece idx plen) /\
  ((total_length fs < idx * plen + lenN piece)%N ->
     (forall rest, get_file_writers Debug (fs ++ f :: rest) piece idx plen = Panic) /\
     ((idx * plen < total_length fs + f_length f - 2 ^ 64)%N -> forall rest,
        get_file_writers Release (fs ++ f :: rest) piece idx plen = Panic) /\
     ((total_length fs + f_length f - 2 ^ 64 <= idx * plen)%N ->
        get_file_writers Release (fs ++ [f]) piece idx plen = get_file_writers Release fs piece idx plen)).
Proof.
  intros fs f piece idx plen NE O T F V.
  assert (L : (0 < lenN piece)%N) by (unfold lenN; destruct piece; [congruence|cbn [List.length]; lia]).
  assert (U : forall p, umul p idx plen = Ret (idx * plen)%N) by (intros p; apply umul_ok; lia).
  unfold get_file_writers, file_parser_new. rewrite !U. cbn [obind].
  set (o := (idx * plen)%N) in *. clearbody o.
  set (s := {| fp_piece_length := lenN piece; fp_offset := o; fp_start_file_index := o; fp_end_file_index := 0; fp_right_file_boundary := 0 |}).
  split.
  - intros D p rest. rewrite U. cbn [obind]. apply (loop_stop p piece fs s [] 0%N o); cbn [s fp_piece_length fp_offset fp_right_file_boundary fp_start_file_index]; auto; lia.
  - intros D.
    assert (P : forall p, exists ws s', (forall rest, file_writers_loop p piece (fs ++ rest) s [] = file_writers_loop p piece rest s' ws) /\
       fp_piece_length s' = lenN piece /\ fp_offset s' = o /\ fp_right_file_boundary s' = total_length fs /\ fp_start_file_index s' = N.max (total_length fs) o).
    { intros p. destruct (loop_pass p piece fs s [] 0%N o) as (ws & s' & H); cbn [s fp_piece_length fp_offset fp_right_file_boundary fp_start_file_index]; auto; try lia.
      exists ws, s'. exact H. }
    split; [|split].
    + intros rest. destruct (P Debug) as (ws & s' & E & _ & _ & E3 & _). rewrite E. cbn [file_writers_loop].
      unfold get_length, update_right_file_boundary. rewrite E3. unfold uadd. rewrite (proj2 (N.ltb_ge _ two64)) by (unfold two64; lia). reflexivity.
    + intros In rest. destruct (P Release) as (ws & s' & E & E1 & E2 & E3 & E4). rewrite E. cbn [file_writers_loop].
      unfold get_length, update_right_file_boundary. rewrite E3. unfold uadd at 1. rewrite (proj2 (N.ltb_ge _ two64)) by (unfold two64; lia).
      cbn [obind]. unfold is_piece_in_file. cbn [fp_offset fp_right_file_boundary]. rewrite E2.
      replace ((total_length fs + f_length f) mod two64)%N with (total_length fs + f_length f - 2 ^ 64)%N by (unfold two64; lia).
      rewrite (proj2 (N.ltb_lt _ _)) by auto.
      unfold update_end_file_index. cbn [fp_offset fp_piece_length fp_right_file_boundary fp_start_file_index].
      rewrite E1, uadd_ok by auto. cbn [obind].
      unfold get_start_file_index, get_end_file_index, get_start_piece_index, get_end_piece_index.
      cbn [fp_offset fp_piece_length fp_right_file_boundary fp_start_file_index fp_end_file_index]. rewrite E4.
      assert (W : forall a b, exists c, usub Release a b = Ret c) by (intros a b; unfold usub; destruct (b <=? a)%N; eauto).
      destruct (W (total_length fs + f_length f - 2 ^ 64)%N (f_length f)) as (c & ->). cbn [obind].
      destruct (W (N.max (total_length fs) o) c) as (c1 & ->). cbn [obind].
      destruct (W (N.min (total_length fs + f_length f - 2 ^ 64) (o + lenN piece)) c)%N as (c2 & ->). cbn [obind].
      rewrite !usub_ok by lia. cbn [obind]. unfold sliceN. rewrite (proj2 (N.leb_gt _ _)) by lia. reflexivity.
    + intros Out. destruct (P Release) as (ws & s' & E & E1 & E2 & E3 & E4). rewrite E.
      specialize (E []). rewrite app_nil_r in E. rewrite E. cbn [file_writers_loop].
      unfold get_length, update_right_file_boundary. rewrite E3. unfold uadd at 1. rewrite (proj2 (N.ltb_ge _ two64)) by (unfold two64; lia).
      cbn [obind]. unfold is_piece_in_file. cbn [fp_offset fp_right_file_boundary]. rewrite E2.
      replace ((total_length fs + f_length f) mod two64)%N with (total_length fs + f_length f - 2 ^ 64)%N by (unfold two64; lia).
      rewrite (proj2 (N.ltb_ge _ _)) by auto. reflexivity.
Qed.

Lemma c24_place : forall files piece idx plen, (2 ^ 64 <= idx * plen)%N ->
  get_file_writers Debug files piece idx plen = Panic /\
  get_file_writers Release files piece idx plen = get_file_writers Release files piece ((idx * plen) mod 2 ^ 64) 1.
Proof.
  intros files piece idx plen H. unfold get_file_writers, file_parser_new, umul at 1 2.
  rewrite (proj2 (N.ltb_ge _ two64)) by (unfold two64; lia). split; [reflexivity|].
  rewrite umul_ok by (rewrite N.mul_1_r; apply N.mod_lt; discriminate). rewrite N.mul_1_r. reflexivity.
Qed.

(** ** C31: errors *)
Lemma c31_error : forall s ticks, st_sched s = TErr :: ticks ->
  exists s', read_stream s = (None, s') /\ st_avail s' = st_avail s /\ st_closed s' = st_closed s /\ st_sched s' = ticks /\ st_sent s' = st_sent s.
Proof.
  intros s ticks E. unfold read_stream, has_messages, peek, env_step. rewrite E. cbn. eexists. split; [reflexivity|]. auto.
Qed.

(** ** C31: the connection ends after the length of a message *)
Lemma env_closed : forall s, st_closed s = true -> Forall (fun t => t <> TErr) (st_sched s) ->
  exists s', env_step s = (false, s') /\ st_avail s' = st_avail s /\ st_closed s' = true /\
    Forall (fun t => t <> TErr) (st_sched s').
Proof.
  intros s C F. unfold env_step. destruct (st_sched s) as [|t r] eqn:E.
  - exists s. rewrite E. auto.
  - inversion F as [|? ? H1 H2]; subst. destruct t; try congruence; eexists; (split; [reflexivity|]); cbn; rewrite ?C; auto.
Qed.

Lemma ended_body : forall k len s, (0 < len)%N -> st_avail s = [] -> st_closed s = true -> Forall (fun t => t <> TErr) (st_sched s) ->
  fst (read_body k len s) = None.
Proof.
  induction k as [|k IH]; intros len s L A C F; [reflexivity|]. cbn [read_body]. unfold peek_and_read, peek.
  destruct (env_closed s C F) as (s1 & -> & A1 & C1 & F1). cbn [st_avail]. rewrite A1, A, C1.
  change (lenN []) with 0%N. destruct (0 =? len)%N eqn:E; [apply N.eqb_eq in E; lia|]. apply IH; auto. congruence.
Qed.

Lemma c31_end : forall s n, (n < 4294967296)%N -> st_avail s = big_endian 4 n -> st_closed s = true -> Forall (fun t => t <> TErr) (st_sched s) ->
  fst (read_stream s) = (if (n <=? 1)%N then Some ([], 0%N, 0%N) else None).
Proof.
  intros s n L A C F.
  assert (exists a b c d, big_endian 4 n = [a; b; c; d]) as (a & b & c & d & B) by (cbn; eauto).
  unfold read_stream, has_messages. unfold peek at 1. 
  destruct (env_closed s C F) as (s1 & -> & A1 & C1 & F1). rewrite A1, A, B. cbn [takeN firstn negb].
  change (takeN 1 [a; b; c; d]) with [a]. cbn [negb].
  unfold peek at 1. destruct (env_closed s1 C1 F1) as (s2 & -> & A2 & C2 & F2). rewrite A2, A1, A, B.
  change (takeN 68 [a; b; c; d]) with [a; b; c; d]. change (lenN [a; b; c; d] =? 68)%N with false. cbn [andb].
  unfold read_frame. unfold read at 1. destruct (env_closed s2 C2 F2) as (s3 & -> & A3 & C3 & F3). rewrite A3, A2, A1, A, B.
  change (takeN 4 [a; b; c; d]) with [a; b; c; d]. change (dropN 4 [a; b; c; d]) with (@nil N).
  change (overlay [0; 0; 0; 0]%N [a; b; c; d]) with [a; b; c; d].
  assert (from_be [a; b; c; d] = n) as -> by (rewrite <- B; apply ProofMessages.from_be_be; exact L).
  unfold read at 1.
  destruct (env_closed (set_avail s3 []) C3 F3) as (s4 & -> & A4 & C4 & F4). rewrite A4, C4. cbn [st_avail set_avail].
  change (hd 0%N (overlay [0%N] [])) with 0%N.
  destruct (n =? 0)%N eqn:E0; [apply N.eqb_eq in E0; subst n; reflexivity|]. apply N.eqb_neq in E0.
  destruct (n <=? 1)%N eqn:E1.
  - apply N.leb_le in E1. assert (n - 1 = 0)%N as -> by lia. cbn [read_body]. unfold peek_and_read, peek.
    destruct (env_closed s4 C4 F4) as (s5 & -> & A5 & C5 & F5). rewrite A5, A4, C5. cbn [st_avail set_avail].
    change (lenN [] =? 0)%N with true. unfold read. cbn match. 
    destruct (env_closed s5 C5 F5) as (s6 & -> & A6 & C6 & F6). rewrite A6, A5, A4, C6. cbn [st_avail set_avail]. reflexivity.
  - apply N.leb_gt in E1. pose proof (ended_body 39 (n - 1) s4 ltac:(lia) A4 C4 F4) as Q.
    destruct (read_body 39 (n - 1) s4) as [[?|] ?]; [discriminate|reflexivity].
Qed.

(** ** C65: a description that cannot be had *)
Lemma dead_still : forall sha1 p cwd o s t x, pop_ok o -> nth_error (pr_torrents s) t = Some x -> sy_dead x = true ->
  exists x', nth_error (pr_torrents (pr_step sha1 p cwd s o)) t = Some x' /\ sy_dead x' = true /\ sy_actor x' = sy_actor x /\ sy_trace x' = sy_trace x.
Proof.
  intros sha1 p cwd o s t x OK N D.
  destruct (torrent_forward sha1 p cwd s o t x N) as (x' & N' & _ & _). exists x'. split; [auto|].
  destruct (torrent_cases sha1 p cwd s o t x' OK N') as [[E _]|[(y & D' & o' & E & _ & -> & _)|(raw & full & h & _ & _ & E & _)]].
  - rewrite N in E. injection E as <-. auto.
  - rewrite N in E. injection E as <-. destruct o'; cbn [sys_step set_disk sy_dead sy_queue sy_working sy_writer_dead sy_writer].
    + auto.
    + rewrite D. cbn. auto.
    + destruct (sy_queue x); cbn; auto. match goal with |- context [if ?c then _ else _] => destruct c end; cbn; auto.
    + match goal with |- context [nth_error (sy_working x) ?j] => destruct (nth_error (sy_working x) j) end; cbn; auto. destruct (download _ _ _ _ _ _ _ _) as [[?|?]| |]; cbn; auto.
    + destruct (sy_writer_dead x); cbn; auto. destruct (sy_writer x); cbn; auto. destruct (write _ _ _ _ _ _ _); cbn; auto.
  - exfalso. assert (t < List.length (pr_torrents s))%nat by (apply nth_error_Some; congruence). lia.
Qed.

Lemma dead_still_run : forall sha1 p cwd ops s t x, Forall pop_ok ops -> nth_error (pr_torrents s) t = Some x -> sy_dead x = true ->
  exists x', nth_error (pr_torrents (pr_run sha1 p cwd s ops)) t = Some x' /\ sy_actor x' = sy_actor x /\ sy_trace x' = sy_trace x.
Proof.
  intros sha1 p cwd. induction ops as [|o ops IH]; intros s t x F N D.
  - exists x. auto.
  - inversion F as [|? ? OK F']; subst. destruct (dead_still sha1 p cwd o s t x OK N D) as (x1 & N1 & D1 & A1 & T1).
    destruct (IH _ t x1 F' N1 D1) as (x' & N' & A' & T'). exists x'. cbn [pr_run fold_left]. fold (pr_run sha1 p cwd (pr_step sha1 p cwd s o) ops).
    split; [auto|]. split; congruence.
Qed.

Lemma c65_no_description : forall sha1 p cwd s t x k ep accept fuel net pid shuffle ops,
  nth_error (pr_torrents s) t = Some x -> ta_info (sy_actor x) = None -> sy_dead x = false ->
  nth_error (sy_mail x) k = Some (PeerFound ep) ->
  collect_info accept fuel cwd (pr_disk s) net pid (ta_info_hash (sy_actor x)) ep = Panic -> Forall pop_ok ops ->
  exists x', nth_error (pr_torrents (pr_run sha1 p cwd s (PHandle t k accept fuel net pid shuffle :: ops))) t = Some x' /\
    ta_info (sy_actor x') = None /\ sy_trace x' = sy_trace x.
Proof.
  intros sha1 p cwd s t x k ep accept fuel net pid shuffle ops N I D M C F.
  cbn [pr_run fold_left]. set (s1 := pr_step sha1 p cwd s _).
  assert (Q : exists x1, nth_error (pr_torrents s1) t = Some x1 /\ sy_dead x1 = true /\ sy_actor x1 = sy_actor x /\ sy_trace x1 = sy_trace x).
  { unfold s1. cbn [pr_step]. rewrite N, M, I, D, C. rewrite torrent_nth. cbn [with_disk pr_torrents pr_disk]. rewrite N, Nat.eqb_refl.
    cbn [option_map]. eexists. split; [reflexivity|]. cbn [sys_step set_disk sy_dead sy_mail sy_actor]. rewrite D, M.
    cbn [handle]. unfold handle_peer_found. rewrite I. cbn [obind sy_dead sy_actor sy_trace]. auto. }
  destruct Q as (x1 & N1 & D1 & A1 & T1). destruct (dead_still_run sha1 p cwd ops s1 t x1 F N1 D1) as (x' & N' & A' & T').
  exists x'. split; [exact N'|]. split; congruence.
Qed.
