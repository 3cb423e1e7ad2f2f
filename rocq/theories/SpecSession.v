(** SpecSession: extension messages, and peers that cooperate, without helpers of the model. *)
From Verif Require Import Base ModelBencode ModelMessages ModelStream ModelPeer SpecBencode SpecMessages SpecStream SpecPeer.

(** The integer, and the dictionary, bound to a key. *)
Definition int_at (d : list (bytes * bval)) (k : bytes) : option N :=
  match last_binding d k with Some (BInt n) => Some n | _ => None end.
Definition dict_at (d : list (bytes * bval)) (k : bytes) : list (bytes * bval) :=
  match last_binding d k with Some (BDict m) => m | _ => [] end.

(** What successive attempts to read from a socket bring: messages (id and body) and silences. *)
Definition delivers (s : stream) (c : list (option raw)) : Prop :=
  map (option_map (fun v => match v with (body, id, _) => (id, body) end)) (fst (read_messages (List.length c) s)) = c.

(** Never [k] silent attempts in a row. *)
Definition talkative (k : nat) (c : list (option raw)) : Prop :=
  forall a b j, c = a ++ repeat None j ++ b -> (j < k)%nat.

(** A message that can be read, does not choke us, and states no metadata size except as [size] says. *)
Definition well_behaved (size : N -> hmap N -> Prop) (r : raw) : Prop :=
  fst r <> 0%N /\ (exists m, parsed r m) /\
  forall m n e, parsed r m -> states_size m = Some (n, e) -> size n e.

(** A peer that cooperates: a handshake for the right torrent, then at most ten attempts until it has
    unchoked us and stated the size of the metadata, then [rest]. *)
Record cooperates (ih : bytes) (size : N -> hmap N -> Prop) (s : stream) (opening rest : list (option raw)) : Prop := {
  co_handshake : exists h, delivers s (Some (19%N, h) :: opening ++ rest) /\ List.length h = 68%nat /\ firstn 20 (skipn 28 h) = ih;
  co_soon : (List.length opening <= 10)%nat;
  co_unchokes : exists body, In (Some (1%N, body)) opening;
  co_states : exists r m n e, In (Some r) opening /\ parsed r m /\ states_size m = Some (n, e);
  co_behaves : forall r, In (Some r) (opening ++ rest) -> well_behaved size r;
  co_talks : talkative 10 (opening ++ rest)
}.

(** The data of the piece messages, and of the metadata messages, among what was read. *)
Definition blocks (c : list (option raw)) : list bytes :=
  flat_map (fun o => match o with
                     | Some (id, body) => if ((id =? 6) || (id =? 7))%N then [skipn 8 body] else []
                     | None => []
                     end) c.
Inductive metadata_blocks : list (option raw) -> list bytes -> Prop :=
| mb_nil : metadata_blocks [] []
| mb_silence c l : metadata_blocks c l -> metadata_blocks (None :: c) l
| mb_block r m e c l : parsed r m -> msg_content m = CExtension e -> ex_msg_type e = Some 1%N ->
    metadata_blocks c l -> metadata_blocks (Some r :: c) (ex_get_data e :: l)
| mb_other r c l : (forall m e, parsed r m -> msg_content m = CExtension e -> ex_msg_type e <> Some 1%N) ->
    metadata_blocks c l -> metadata_blocks (Some r :: c) l.

(** A size other than zero; the size [n], with the extension ut_metadata. *)
Definition some_size (n : N) (e : hmap N) : Prop := n <> 0%N.
Definition this_size (n n' : N) (e : hmap N) : Prop := n' = n /\ hm_get e (s2b "ut_metadata") <> None.

(** ** A seed *)

(** Everything a seed sends for one piece: an unchoke message, an extension handshake that states a
    metadata size, and the blocks of the piece. *)
Definition seed_messages (idx : N) (blks : list bytes) : list raw :=
  (1%N, []) :: (20%N, 0%N :: s2b "d13:metadata_sizei1ee") ::
  map (fun kb => (7%N, big_endian 4 idx ++ big_endian 4 (16384 * N.of_nat (fst kb)) ++ snd kb)) (combine (seq 0 (List.length blks)) blks).
Definition wire (ms : list raw) : bytes := flat_map (fun m => frame (fst m) (snd m)) ms.
(** A connection to a seed with peer id [pid] for the torrent [ih]. *)
Definition seed (ih pid : bytes) (idx : N) (blks : list bytes) : stream :=
  {| st_avail := handshake_layout ih pid ++ wire (seed_messages idx blks); st_closed := false; st_sched := []; st_wsched := []; st_sent := [] |}.

(** Everything a seed sends for metadata of [n] bytes: an unchoke message, an extension handshake, and
    the blocks of the metadata. *)
Definition extension_message (id : N) (d : list (bytes * bval)) (data : bytes) : raw := (20%N, id :: benc (BDict d) ++ data).
Definition info_seed_messages (n ut_id : N) (blks : list bytes) : list raw :=
  (1%N, []) ::
  extension_message 0 [(s2b "m", BDict [(s2b "ut_metadata", BInt ut_id)]); (s2b "metadata_size", BInt n)] [] ::
  map (fun kb => extension_message 1 [(s2b "msg_type", BInt 1); (s2b "piece", BInt (N.of_nat (fst kb))); (s2b "total_size", BInt n)] (snd kb))
    (combine (seq 0 (List.length blks)) blks).
Definition info_seed (ih pid : bytes) (n ut_id : N) (blks : list bytes) : stream :=
  {| st_avail := handshake_layout ih pid ++ wire (info_seed_messages n ut_id blks); st_closed := false; st_sched := []; st_wsched := []; st_sent := [] |}.
