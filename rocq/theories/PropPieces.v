(** PropPieces: properties C28, C29 and C38 (pieces, blocks, the piece pool) *)
From Verif Require Import Base ModelPeer SpecWriter SpecPieces ProofPieces.

(** C28: the pieces partition the torrent. *)
Theorem C28_pieces_partition : forall p total plen, (0 < plen)%N -> (total + plen <= 2 ^ 64)%N ->
  exists n lens, step_by_len total plen = Ret n /\ List.length lens = N.to_nat n /\
    (total <= n * plen)%N /\ (forall m, total <= m * plen -> n <= m)%N /\
    (forall i len, nth_error lens i = Some len ->
       real_piece_length p plen (N.of_nat i) total = Ret len /\ (1 <= len <= plen)%N /\
       (N.of_nat i + 1 < n -> len = plen)%N) /\
    sumN lens = total.
Proof. exact c28. Qed.
Print Assumptions C28_pieces_partition.

(** C28: the computed length is that of the bytes of the piece. *)
Theorem C28_piece_length : forall p T plen i, (0 < plen)%N -> (i < piece_count (lenN T) plen)%N ->
  (lenN T + plen <= 2 ^ 64)%N -> real_piece_length p plen i (lenN T) = Ret (lenN (torrent_piece T plen i)).
Proof. exact c28_piece. Qed.
Print Assumptions C28_piece_length.

Example C28_example : step_by_len 1000000 262144 = Ret 4%N /\ real_piece_length Debug 262144 2 1000000 = Ret 262144%N /\
  real_piece_length Debug 262144 3 1000000 = Ret 213568%N.
Proof. vm_compute. auto. Qed.

(** C28: a piece length of zero in the metadata makes counting the pieces panic. *)
Theorem C28_zero_piece_length_refuted : exists total plen, step_by_len total plen = Panic.
Proof. exists 5%N, 0%N. reflexivity. Qed.
Print Assumptions C28_zero_piece_length_refuted.

(** C28: close to 2^64 the length computation overflows although the index is valid. *)
Theorem C28_overflow_refuted : exists total plen i n, step_by_len total plen = Ret n /\ (i < n)%N /\ (total < 2 ^ 64)%N /\
  real_piece_length Debug plen i total = Panic.
Proof. exists (2 ^ 64 - 1)%N, (2 ^ 63)%N, 1%N, 2%N. vm_compute. auto. Qed.
Print Assumptions C28_overflow_refuted.

(** C29: the requests of piece [i] are consecutive and reach from 0 to [e], which is the end of the
    piece exactly if the piece length is a multiple of 16384 or the piece is the last one; they never
    reach beyond the end of the torrent. *)
Theorem C29_blocks_tile : forall p total plen n i len,
  (0 < plen)%N -> (total + plen <= 2 ^ 64)%N -> (plen < 2 ^ 32)%N -> (i < 2 ^ 32)%N ->
  step_by_len total plen = Ret n -> (i < n)%N -> real_piece_length p plen i total = Ret len ->
  exists reqs e, step_by_len len 16384 = Ret (N.of_nat (List.length reqs)) /\
    (forall b off l, nth_error reqs b = Some (off, l) ->
       block_request p 16384 i total plen (N.of_nat b) = Ret (i, off, l)) /\
    tiles 16384 reqs 0 e /\
    (e = len <-> plen mod 16384 = 0 \/ i = n - 1)%N /\ (len <= e /\ i * plen + e <= total)%N.
Proof. exact c29. Qed.
Print Assumptions C29_blocks_tile.

Example C29_example :
  block_request Debug 16384 3 1000000 262144 0 = Ret (3, 0, 16384)%N /\
  block_request Debug 16384 3 1000000 262144 13 = Ret (3, 212992, 576)%N /\
  step_by_len 213568 16384 = Ret 14%N.
Proof. vm_compute. auto. Qed.

(** C29: a piece whose length is no multiple of 16384 and which is not the last: the request reaches
    into the next piece. *)
Theorem C29_unaligned_refuted : exists total plen i b off l, (i + 1 < piece_count total plen)%N /\
  block_request Release 16384 i total plen b = Ret (i, off, l) /\
  real_piece_length Release plen i total = Ret plen /\ (off < plen)%N /\ (plen < off + l)%N.
Proof. exists 60000%N, 20000%N, 0%N, 1%N, 16384%N, 16384%N. vm_compute. auto 10. Qed.
Print Assumptions C29_unaligned_refuted.

(** C29: offsets are truncated to 32 bits, so a piece longer than 4 GiB is not tiled. *)
Theorem C29_large_piece_refuted : exists total plen b len, real_piece_length Release plen 0 total = Ret len /\
  (b * 16384 < len)%N /\ block_request Release 16384 0 total plen b = Ret (0, 0, 16384)%N /\ b <> 0%N.
Proof. exists (2 ^ 33)%N, (2 ^ 33)%N, (2 ^ 18)%N, (2 ^ 33)%N. vm_compute. repeat split; discriminate. Qed.
Print Assumptions C29_large_piece_refuted.

(** C38: taken numbers followed by what is left are the initial numbers followed by those put back;
    taking fails exactly when everything has been taken, and else yields the oldest. *)
Theorem C38_pool_is_fifo : forall n ops rs q, run_pool (pool_new n) ops = (rs, q) ->
  numbers n ++ puts ops = got rs ++ q /\
  (forall ops1 ops2, ops = ops1 ++ Take :: ops2 ->
     exists rs1 q1 r rs2, run_pool (pool_new n) ops1 = (rs1, q1) /\ rs = rs1 ++ r :: rs2 /\
       (r = None <-> got rs1 = numbers n ++ puts ops1) /\
       (forall x, r = Some x -> exists l, numbers n ++ puts ops1 = got rs1 ++ x :: l)).
Proof. exact c38. Qed.
Print Assumptions C38_pool_is_fifo.

Example C38_example : run_pool (pool_new 2) [Take; Put 7%N; Take; Take; Take; Put 0%N]
  = ([Some 0; Some 1; Some 7; None], [0])%N.
Proof. vm_compute. reflexivity. Qed.
