(** PropAlike: nothing else a peer says matters (C74) *)
From Verif Require Import Base ModelBencode ModelMessages ModelTorrent ModelTracker ModelStream ModelPeer
  SpecBencode SpecMessages SpecWriter SpecPieces SpecStream SpecPeer SpecSession SpecOutput SpecWrites SpecVerdict SpecAlike ProofAlike PropPeer.

(** C74: if however long one listens to one peer, one could have heard from another one what means the same, the other one gives what
    the one gives: bitfields, have messages, the index and the offset stated with a block, the peer id, and so on do not matter. *)
Theorem C74_piece : forall sha1 p fuel s s' pid pid' ep ep' i idx total,
  parse_socket_addr ep <> None -> parse_socket_addr ep' <> None -> get_total_length p i = Ret total ->
  (0 < i_piece_length i)%N -> (idx < piece_count total (i_piece_length i))%N -> (total + i_piece_length i <= 2 ^ 64)%N ->
  (idx < 2 ^ 32)%N -> (i_piece_length i < 2 ^ 32)%N -> (20 * N.to_nat idx + 20 <= List.length (i_pieces i))%nat ->
  (11 * List.length (incoming s) + 11 < fuel)%nat -> (11 * List.length (incoming s') + 11 < fuel)%nat ->
  (third_write_fails s <-> third_write_fails s') ->
  indistinct piece_alike (compute_info_hash sha1 i) s s' ->
  forall r, download sha1 p fuel (Some s) pid ep i idx = Ret r -> download sha1 p fuel (Some s') pid' ep' i idx = Ret r.
Proof. exact c74_piece. Qed.
Print Assumptions C74_piece.

(** C74: the same for metadata, where the size and whether the extension is named matter, and blocks of pieces do not. *)
Theorem C74_metadata : forall fuel s s' pid pid' ih ep ep',
  parse_socket_addr ep <> None -> parse_socket_addr ep' <> None ->
  (11 * List.length (incoming s) + 11 < fuel)%nat -> (11 * List.length (incoming s') + 11 < fuel)%nat ->
  (third_write_fails s <-> third_write_fails s') ->
  indistinct info_alike ih s s' ->
  forall r, get_info fuel (Some s) pid ih ep = Ret r -> get_info fuel (Some s') pid' ih ep' = Ret r.
Proof. exact c74_metadata. Qed.
Print Assumptions C74_metadata.

(** C74: two peers whose handshakes are for the torrent, and whose messages, one by one, mean the same: the sessions have the same
    outcome. *)
Theorem C74_said_piece : forall sha1 p fuel s s' pid pid' ep ep' i idx total h h' l l',
  parse_socket_addr ep <> None -> parse_socket_addr ep' <> None -> get_total_length p i = Ret total ->
  (0 < i_piece_length i)%N -> (idx < piece_count total (i_piece_length i))%N -> (total + i_piece_length i <= 2 ^ 64)%N ->
  (idx < 2 ^ 32)%N -> (i_piece_length i < 2 ^ 32)%N -> (20 * N.to_nat idx + 20 <= List.length (i_pieces i))%nat ->
  (11 * List.length (incoming s) + 11 < fuel)%nat -> (11 * List.length (incoming s') + 11 < fuel)%nat ->
  (third_write_fails s <-> third_write_fails s') ->
  handshake_for (compute_info_hash sha1 i) h -> handshake_for (compute_info_hash sha1 i) h' ->
  has_said s h l -> has_said s' h' l' ->
  Forall2 (fun r r' => piece_alike (Some r) (Some r')) l l' ->
  download sha1 p fuel (Some s) pid ep i idx = download sha1 p fuel (Some s') pid' ep' i idx.
Proof. exact c74_arrived_piece. Qed.
Print Assumptions C74_said_piece.

Theorem C74_said_metadata : forall fuel s s' pid pid' ih ep ep' h h' l l',
  parse_socket_addr ep <> None -> parse_socket_addr ep' <> None ->
  (11 * List.length (incoming s) + 11 < fuel)%nat -> (11 * List.length (incoming s') + 11 < fuel)%nat ->
  (third_write_fails s <-> third_write_fails s') ->
  handshake_for ih h -> handshake_for ih h' ->
  has_said s h l -> has_said s' h' l' ->
  Forall2 (fun r r' => info_alike (Some r) (Some r')) l l' ->
  get_info fuel (Some s) pid ih ep = get_info fuel (Some s') pid' ih ep'.
Proof. exact c74_arrived_metadata. Qed.
Print Assumptions C74_said_metadata.

(** One peer has all pieces and answers; the other one, with other reserved bytes and another id, has none, says so, numbers its
    extensions differently, states another size, and sends the same bytes as a block of piece 77 at offset 5. *)
Definition ex_one : list raw :=
  [(5%N, [255]%N); (1%N, []); (20%N, 0%N :: s2b "d1:md11:ut_metadatai1ee13:metadata_sizei9ee"); (7%N, [0; 0; 0; 1; 0; 0; 0; 0; 4; 5]%N)].
Definition ex_other : list raw :=
  [(5%N, [0]%N); (1%N, [9]%N); (20%N, 7%N :: s2b "d13:metadata_sizei1ee"); (7%N, [0; 0; 0; 77; 0; 0; 0; 5; 4; 5]%N)].
Definition ex_said (h : bytes) (l : list raw) : stream := ex_socket (h ++ flat_map (fun m => frame (fst m) (snd m)) l).
Example ex_alike : Forall2 (fun r r' => piece_alike (Some r) (Some r')) ex_one ex_other.
Proof.
  unfold ex_one, ex_other. constructor; [apply pa_idle; (split; [cbn; intuition discriminate|discriminate])|].
  constructor; [apply pa_choke; auto|]. constructor; [|constructor; [|constructor]].
  - eapply pa_extension; [eexists; split; [exists 0%N; vm_compute; reflexivity|reflexivity]
                           |eexists; split; [exists 0%N; vm_compute; reflexivity|reflexivity]|split; discriminate|split; discriminate].
  - apply pa_block; [split; [auto|cbn; lia]|split; [auto|cbn; lia]|reflexivity].
Qed.
Example C74_example :
  let i := ex_info (ex_sha1 [1; 2; 3]%N ++ ex_sha1 [4; 5]%N) in
  let ih := compute_info_hash ex_sha1 i in
  let h := handshake_layout ih (repeat 8%N 20) in let h' := firstn 20 h ++ repeat 3%N 8 ++ ih ++ repeat 200%N 20 in
  let asked s := download ex_sha1 Debug (N.to_nat 5000) (Some s) (repeat 1%N 20) (s2b "10.0.0.1:6881") i 1 in
  Forall2 (fun r r' => piece_alike (Some r) (Some r')) ex_one ex_other /\
  asked (ex_said h ex_one) = asked (ex_said h' ex_other) /\ asked (ex_said h ex_one) = Ret (Ok [4; 5]%N).
Proof.
  intros i ih h h' asked. split; [exact ex_alike|]. split; [|vm_compute; reflexivity].
  assert (S : forall h l, forallb (fun m => lenN (snd m) <? 1000)%N l = true -> has_said (ex_said h l) h l).
  { intros g l B. split; [split; [reflexivity|split; [cbn; apply app_nil_r|constructor]]|]. apply Forall_forall. intros m I.
    pose proof (proj1 (forallb_forall _ _) B m I) as L. apply N.ltb_lt in L. unfold short_body.
    eapply N.lt_trans; [apply N.add_lt_mono_r; exact L|reflexivity]. }
  refine (C74_said_piece ex_sha1 Debug (N.to_nat 5000) (ex_said h ex_one) (ex_said h' ex_other) _ _ _ _ i 1 5 h h' ex_one ex_other
    _ _ _ _ _ _ _ _ _ _ _ _ _ _ _ _ ex_alike).
  - vm_compute. discriminate.
  - vm_compute. discriminate.
  - vm_compute. reflexivity.
  - vm_compute. reflexivity.
  - vm_compute. reflexivity.
  - vm_compute. discriminate.
  - vm_compute. reflexivity.
  - vm_compute. reflexivity.
  - apply Nat.leb_le. vm_compute. reflexivity.
  - apply Nat.ltb_lt. vm_compute. reflexivity.
  - apply Nat.ltb_lt. vm_compute. reflexivity.
  - split; intros (n & H); discriminate H.
  - vm_compute. auto.
  - vm_compute. auto.
  - apply S. reflexivity.
  - apply S. reflexivity.
Qed.
