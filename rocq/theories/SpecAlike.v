(** SpecAlike: sessions that differ only in what does not matter, without helpers of the model. *)
From Verif Require Import Base ModelBencode ModelMessages ModelTorrent ModelStream ModelPeer
  SpecBencode SpecMessages SpecStream SpecPeer SpecSession SpecOutput SpecVerdict.

(** A handshake (after the first message) or a message of a kind the client has no use for: interested, have,
    bitfield, cancel, and whatever else there may be; with any content. *)
Definition idle_talk (r : raw) : Prop :=
  ~ In (fst r) [0; 1; 6; 7; 20]%N /\ (fst r = 19%N -> (68 <= List.length (snd r))%nat).
(** A block, or a request: an index, an offset and data. *)
Definition block_like (r : raw) : Prop := (fst r = 6%N \/ fst r = 7%N) /\ (8 <= List.length (snd r))%nat.
(** An extension message that can be read. *)
Definition extension (r : raw) (e : extension_msg) : Prop := exists m, parsed r m /\ msg_content m = CExtension e.

(** Two attempts that mean the same to a session for a piece: both bring nothing or what is dropped; choke or unchoke; a block with the
    same data, for whatever piece and offset; an extension message that states a size other than zero, or zero, or none; idle talk. *)
Inductive piece_alike : heard -> heard -> Prop :=
| pa_nothing o o' : legible o -> silent o -> legible o' -> silent o' -> piece_alike o o'
| pa_choke id body body' : id = 0%N \/ id = 1%N -> piece_alike (Some (id, body)) (Some (id, body'))
| pa_block r r' : block_like r -> block_like r' -> skipn 8 (snd r) = skipn 8 (snd r') -> piece_alike (Some r) (Some r')
| pa_extension body body' e e' : extension (20%N, body) e -> extension (20%N, body') e' ->
    (ex_get_metadata_size e = None <-> ex_get_metadata_size e' = None) ->
    (ex_get_metadata_size e = Some 0%N <-> ex_get_metadata_size e' = Some 0%N) -> piece_alike (Some (20%N, body)) (Some (20%N, body'))
| pa_idle r r' : idle_talk r -> idle_talk r' -> piece_alike (Some r) (Some r').

(** The same for a session for metadata: the size stated, whether the extension is named, and metadata blocks matter. *)
Inductive info_alike : heard -> heard -> Prop :=
| ia_nothing o o' : legible o -> silent o -> legible o' -> silent o' -> info_alike o o'
| ia_choke id body body' : id = 0%N \/ id = 1%N -> info_alike (Some (id, body)) (Some (id, body'))
| ia_extension body body' e e' : extension (20%N, body) e -> extension (20%N, body') e' ->
    ex_get_metadata_size e = ex_get_metadata_size e' ->
    (hm_get (ex_get_extensions e) (s2b "ut_metadata") = None <-> hm_get (ex_get_extensions e') (s2b "ut_metadata") = None) ->
    (ex_msg_type e = Some 1%N <-> ex_msg_type e' = Some 1%N) -> (ex_msg_type e = Some 1%N -> ex_get_data e = ex_get_data e') ->
    info_alike (Some (20%N, body)) (Some (20%N, body'))
| ia_idle r r' : idle_talk r \/ block_like r -> idle_talk r' \/ block_like r' -> info_alike (Some r) (Some r').

(** Two sessions: the first attempts bring a handshake for the torrent, both or none; the others mean the same. *)
Inductive sessions_alike (alike : heard -> heard -> Prop) (ih : bytes) : list heard -> list heard -> Prop :=
| sa_nothing : sessions_alike alike ih [] []
| sa_first o o' c c' : legible o -> legible o' -> (greeting ih o <-> greeting ih o') -> Forall2 alike c c' -> sessions_alike alike ih (o :: c) (o' :: c').
(** However long one listens to [s], one could have heard the same from [s']. *)
Definition indistinct (alike : heard -> heard -> Prop) (ih : bytes) (s s' : stream) : Prop :=
  forall c, told_by s c -> exists c', told_by s' c' /\ sessions_alike alike ih c c'.
(** A handshake for the torrent with info hash [ih]; and all of [h] and then the messages [l] has arrived before the client looks. *)
Definition handshake_for (ih h : bytes) : Prop := List.length h = 68%nat /\ hd 0%N h = 19%N /\ firstn 20 (skipn 28 h) = ih.
Definition has_said (s : stream) (h : bytes) (l : list raw) : Prop :=
  arrived s (h ++ flat_map (fun m => frame (fst m) (snd m)) l) /\ Forall (fun m => short_body (snd m)) l.
