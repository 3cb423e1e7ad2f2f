(** PropStream: properties C30-C32 (framing of peer messages on a TCP stream) *)
From Verif Require Import Base ModelStream SpecMessages SpecStream ProofStream.

(** C30: a buffered message is read exactly, whatever arrives meanwhile. *)
Theorem C30_buffered_message : forall s id body rest, short_body body -> no_errors 44 s ->
  st_avail s = frame id body ++ rest ->
  exists s' m, read_stream s = (Some (body, id, lenN body), s') /\
    incoming s = frame id body ++ incoming s' /\ st_avail s' = rest ++ m.
Proof. exact c30. Qed.
Print Assumptions C30_buffered_message.

(** C30: and so is any sequence of buffered messages. *)
Theorem C30_buffered_sequence : forall ms s rest, Forall (fun t => t <> TErr) (st_sched s) ->
  Forall (fun m => short_body (snd m)) ms ->
  st_avail s = flat_map (fun m => frame (fst m) (snd m)) ms ++ rest ->
  exists s' m, read_messages (List.length ms) s = (map (fun m => Some (snd m, fst m, lenN (snd m))) ms, s') /\
    st_avail s' = rest ++ m /\ incoming s = flat_map (fun m => frame (fst m) (snd m)) ms ++ incoming s'.
Proof. exact c30_sequence. Qed.
Print Assumptions C30_buffered_sequence.

(** C30: a buffered handshake is recognised. *)
Theorem C30_buffered_handshake : forall s h rest, no_errors 3 s -> List.length h = 68%nat -> hd 0%N h = 19%N ->
  st_avail s = h ++ rest ->
  exists s' m, read_stream s = (Some (h, 19%N, 68%N), s') /\ incoming s = h ++ incoming s' /\ st_avail s' = rest ++ m.
Proof. exact c30_handshake. Qed.
Print Assumptions C30_buffered_handshake.

Definition ex_stream (avail : bytes) (sched : list tick) : stream :=
  {| st_avail := avail; st_closed := false; st_sched := sched; st_wsched := []; st_sent := [] |}.

Example C30_example :
  let s := ex_stream (frame 4 [0; 0; 0; 9]%N ++ frame 1 [] ++ [0]%N) [TData [0]%N; TData []; TData [0; 2; 7]%N] in
  let (rs, s') := read_messages 2 s in
  rs = [Some ([0; 0; 0; 9]%N, 4%N, 4%N); Some ([], 1%N, 0%N)] /\ st_avail s' = [0; 0; 0; 2; 7]%N.
Proof. vm_compute. auto. Qed.

(** C31: the body may arrive in any segments: it has to be complete within the 43 reads and peeks
    that precede and make up the 39 attempts. *)
Theorem C31_segmented_body : forall s id body part more, short_body body -> no_errors 44 s ->
  st_avail s = big_endian 4 (lenN body + 1) ++ [id] ++ part ->
  buffered_after 43 s = frame id body ++ more ->
  exists s' m, read_stream s = (Some (body, id, lenN body), s') /\
    incoming s = frame id body ++ incoming s' /\
    frame id body ++ st_avail s' = st_avail s ++ m /\ st_sent s' = st_sent s.
Proof. exact c31. Qed.
Print Assumptions C31_segmented_body.

(** C31: otherwise nothing is returned and the five header bytes are gone. *)
Theorem C31_incomplete_body : forall s id body part, short_body body -> body <> [] -> no_errors 43 s ->
  st_avail s = big_endian 4 (lenN body + 1) ++ [id] ++ part ->
  (lenN (buffered_after 43 s) < lenN (frame id body))%N ->
  exists s' m, read_stream s = (None, s') /\
    incoming s = big_endian 4 (lenN body + 1) ++ [id] ++ incoming s' /\
    st_avail s' = part ++ m.
Proof. exact c31_incomplete. Qed.
Print Assumptions C31_incomplete_body.

Example C31_example :
  let s := ex_stream [0; 0; 0; 4; 5; 170]%N ([TData []; TData []; TData [187]%N] ++ repeat (TData []) 39 ++ [TData [204]%N]) in
  fst (read_stream s) = Some ([170; 187; 204]%N, 5%N, 3%N) /\
  fst (read_stream (ex_stream [0; 0; 0; 4; 5; 170]%N ([TData [187]%N] ++ repeat (TData []) 42 ++ [TData [204]%N]))) = None.
Proof. vm_compute. auto. Qed.

(** C32: a keep-alive swallows the first byte of the message behind it and reports it as the id of an
    empty message, whatever this message is. *)
Theorem C32_keep_alive : forall s b rest, no_errors 4 s -> st_avail s = [0; 0; 0; 0]%N ++ b :: rest ->
  exists s' m, read_stream s = (Some ([], b, 0%N), s') /\ incoming s = [0; 0; 0; 0; b]%N ++ incoming s' /\
    st_avail s' = rest ++ m.
Proof. exact c32_keep_alive. Qed.
Print Assumptions C32_keep_alive.

(** C32: a handshake of which at least five but not all bytes are there is taken for a message and
    destroyed (unless 323 megabytes arrive). *)
Theorem C32_split_handshake : forall s ih pid k, (5 <= k)%nat -> no_errors 43 s ->
  st_avail s = firstn k (handshake_layout ih pid) -> (lenN (buffered_after 2 s) < 68)%N ->
  (lenN (buffered_after 43 s) < 323119476)%N ->
  exists s', read_stream s = (None, s') /\ incoming s = [19; 66; 105; 116; 84]%N ++ incoming s'.
Proof. exact c32_split_handshake. Qed.
Print Assumptions C32_split_handshake.

(** C32: a message whose length prefix begins with 19 is taken for a handshake. *)
Theorem C32_huge_message : forall s id body rest, (19 * 2 ^ 24 <= lenN body + 1 < 20 * 2 ^ 24)%N -> no_errors 3 s ->
  st_avail s = frame id body ++ rest ->
  exists s' m, read_stream s = (Some (firstn 68 (frame id body), 19%N, 68%N), s') /\
    st_avail s' = skipn 68 (frame id body) ++ rest ++ m.
Proof. exact c32_huge. Qed.
Print Assumptions C32_huge_message.

(** C32: the messages read depend on how the same bytes are cut into segments: a split prefix, a
    split handshake, and a keep-alive followed at once or later by an unchoke message. *)
Theorem C32_segmentation_refuted : exists s1 s2 s3 s4 s5 s6,
  incoming s1 = incoming s2 /\ fst (read_stream s1) = Some ([], 1%N, 0%N) /\ fst (read_stream s2) = Some ([], 0%N, 0%N) /\
  incoming s3 = incoming s4 /\ incoming s3 = handshake_layout (repeat 7%N 20) (repeat 8%N 20) /\
    fst (read_stream s3) = Some (incoming s3, 19%N, 68%N) /\ fst (read_stream s4) = None /\
  incoming s5 = incoming s6 /\ fst (read_messages 2 s5) = [Some ([], 0%N, 0%N); None] /\
    fst (read_messages 2 s6) = [None; Some ([], 1%N, 0%N)].
Proof.
  exists (ex_stream (frame 1 []) []), (ex_stream [0; 0]%N [TData []; TData []; TData []; TData [0; 1; 1]%N]),
    (ex_stream (handshake_layout (repeat 7%N 20) (repeat 8%N 20)) []),
    (ex_stream (firstn 40 (handshake_layout (repeat 7%N 20) (repeat 8%N 20)))
       (repeat (TData []) 50 ++ [TData (skipn 40 (handshake_layout (repeat 7%N 20) (repeat 8%N 20)))])),
    (ex_stream ([0; 0; 0; 0]%N ++ frame 1 []) []),
    (ex_stream [0; 0; 0; 0]%N [TData []; TData []; TData []; TData []; TData (frame 1 [])]).
  vm_compute. repeat split; reflexivity.
Qed.
Print Assumptions C32_segmentation_refuted.
