(** PropOutput: property C61 (what a session sends) *)
From Verif Require Import Base ModelBencode ModelMessages ModelTorrent ModelStream ModelPeer
  SpecBencode SpecMessages SpecWriter SpecStream SpecPeer SpecOutput PropPeer ProofOutput.

(** C61: a session that is refused or not ready has sent the handshake, or the three opening messages;
    a failed write sends the beginning of a message. *)
Theorem C61_refused : forall pid s ih e y, init_peer (peer_new pid s ih) = Ret (Err e, y) ->
  (e = MEHandshake /\ has_sent s y [handshake_layout ih pid]) \/ (e <> MEHandshake /\ has_sent s y (opening_messages ih pid)).
Proof. exact c61_refused. Qed.
Print Assumptions C61_refused.

(** C61: whatever the remote end does, a session for a piece sends the opening messages and requests
    for blocks of that piece, in order, no more of them than the piece has blocks, and nothing else. *)
Theorem C61_piece_session : forall p fuel plen i total pid s ih x r y,
  (0 < plen)%N -> (i < piece_count total plen)%N -> (total + plen <= 2 ^ 64)%N -> (i < 2 ^ 32)%N -> (plen < 2 ^ 32)%N ->
  init_peer (peer_new pid s ih) = Ret (Ok tt, x) -> download_block p fuel plen i total x = Ret (r, y) ->
  let count := piece_count (N.min plen (total - i * plen)) 16384 in
  exists asks, has_sent s y (opening_messages ih pid ++ map (block_request_bytes i total plen) asks) /\
    non_decreasing asks /\ (forall n, In n asks -> (n < count)%N) /\ (countN asks <= count)%N.
Proof. exact c61_piece. Qed.
Print Assumptions C61_piece_session.

(** C61: the same for the metadata; the remote end chooses the number of the extension. *)
Theorem C61_metadata_session : forall fuel pid s ih x r y,
  init_peer (peer_new pid s ih) = Ret (Ok tt, x) -> download_info fuel x = Ret (r, y) ->
  let count := piece_count (p_metadata_size x) 16384 in
  exists asks msgs, has_sent s y (opening_messages ih pid ++ msgs) /\
    Forall2 (fun n m => exists id, m = info_request_bytes id n) asks msgs /\
    non_decreasing asks /\ (forall n, In n asks -> (n < count)%N) /\ (countN asks <= count)%N.
Proof. exact c61_metadata. Qed.
Print Assumptions C61_metadata_session.

(** C61: no request is empty, longer than 16384 bytes or reaches beyond the torrent. *)
Theorem C61_requests_inside : forall i total plen n, (0 < plen)%N -> (i < piece_count total plen)%N ->
  (n < piece_count (N.min plen (total - i * plen)) 16384)%N ->
  (1 <= block_length i total plen n <= 16384)%N /\ (i * plen + n * 16384 + block_length i total plen n <= total)%N /\
  (plen mod 16384 = 0 -> n * 16384 + block_length i total plen n <= plen)%N.
Proof. exact c61_inside. Qed.
Print Assumptions C61_requests_inside.

(** C61: the number of bytes sent is bounded, whatever the remote end does. *)
Theorem C61_volume : forall i total plen asks pid ih s y, List.length pid = 20%nat -> List.length ih = 20%nat ->
  has_sent s y (opening_messages ih pid ++ map (block_request_bytes i total plen) asks) ->
  (lenN (st_sent (p_stream y)) <= lenN (st_sent s) + 137 + 17 * countN asks)%N.
Proof. exact c61_volume. Qed.
Print Assumptions C61_volume.

(** C61: nothing is downloaded from a remote end that has not sent an unchoke message within the
    first eleven. *)
Theorem C61_needs_unchoke : forall pid s ih y, init_peer (peer_new pid s ih) = Ret (Ok tt, y) ->
  exists body len, In (Some (body, 1%N, len)) (fst (read_messages 11 s)).
Proof. exact c61_unchoke. Qed.
Print Assumptions C61_needs_unchoke.

(** C61: what a session sends is what the next theorem is about. *)
Theorem C61_client_output : forall fuel p plen i total pid s ih x y, List.length pid = 20%nat -> List.length ih = 20%nat ->
  (0 < plen)%N -> (i < piece_count total plen)%N -> (total + plen <= 2 ^ 64)%N -> (i < 2 ^ 32)%N -> (plen < 2 ^ 32)%N ->
  st_wsched s = [] -> st_sent s = [] -> init_peer (peer_new pid s ih) = Ret (Ok tt, x) ->
  (exists r, download_block p fuel plen i total x = Ret (r, y)) \/ (exists r, download_info fuel x = Ret (r, y)) ->
  sent_by_client (st_sent (p_stream y)).
Proof. exact c61_client. Qed.
Print Assumptions C61_client_output.

(** C61: this client never serves this client: a remote end that says what a session of this client
    says is never ready. *)
Theorem C61_never_serves : forall pid s ih b y, sent_by_client b -> arrived s b -> init_peer (peer_new pid s ih) <> Ret (Ok tt, y).
Proof. exact c61_instances. Qed.
Print Assumptions C61_never_serves.

(** C61: every peer is told that the metadata has 28282 bytes, whatever its size. *)
Theorem C61_announced_size_refuted : exists m e, parsed (20%N, skipn 5 extension_handshake) m /\ states_size m = Some (28282%N, e) /\
  hm_get e (s2b "ut_metadata") = Some 1%N /\ hm_get e (s2b "ut_pex") = Some 2%N.
Proof. exact c61_announced. Qed.
Print Assumptions C61_announced_size_refuted.

(** A session with a failing write: of the second request only seven bytes are sent. *)
Definition ex_failing : stream :=
  {| st_avail := ex_handshake ++ ex_extended ++ frame 1 [] ++ frame 4 [0; 0; 0; 5]%N ++ block_of 3 0 [1; 2; 3]%N;
     st_closed := false; st_sched := []; st_wsched := [None; None; None; None; Some 7%nat]; st_sent := [] |}.
Example C61_example :
  match init_peer (peer_new (repeat 1%N 20) ex_failing ex_hash) with
  | Ret (Ok tt, x) =>
    match download_block Debug 30 20000 3 80000 x with
    | Ret (Err Idle, y) => st_sent (p_stream y) =
        handshake_layout ex_hash (repeat 1%N 20) ++ frame 2 [] ++ extension_handshake ++ ex_request 0 16384 ++ firstn 7 (ex_request 1 3616)
    | _ => False
    end
  | _ => False
  end.
Proof. vm_compute. reflexivity. Qed.
Example C61_serves_example :
  let b := List.concat (opening_messages ex_hash (repeat 1%N 20) ++ [block_request_bytes 3 80000 20000 0]) in
  sent_by_client b /\ arrived {| st_avail := b; st_closed := false; st_sched := [TData []]; st_wsched := []; st_sent := [] |} b.
Proof.
  split.
  - exists (repeat 1%N 20), ex_hash, [block_request_bytes 3 80000 20000 0]. split; [reflexivity|]. split; [reflexivity|]. split; [|reflexivity].
    constructor; [left; eexists _, _, _, _; reflexivity|constructor].
  - split; [reflexivity|]. split; [vm_compute; reflexivity|]. constructor; [discriminate|constructor].
Qed.
