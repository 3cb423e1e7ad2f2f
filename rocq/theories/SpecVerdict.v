(** SpecVerdict: how a session with a peer ends, told from what is read alone, without helpers of the model. *)
From Verif Require Import Base ModelBencode ModelMessages ModelTorrent ModelStream ModelPeer SpecBencode SpecMessages SpecStream SpecWriter SpecPieces SpecPeer SpecSession.

(** What one attempt to read brings: a message (id and body), or nothing. A session is told as the list of
    attempts, the oldest first. *)
Definition heard := option raw.

(** A message that can be parsed or is dropped; one that means nothing (dropped, or none at all). *)
Definition legible (o : heard) : Prop :=
  forall id body, o = Some (id, body) -> ~ unreadable body id /\ ~ endless body id.
Definition silent (o : heard) : Prop := forall r m, o = Some r -> ~ parsed r m.

(** The last choke or unchoke message unchokes. *)
Definition unchoked (c : list heard) : Prop :=
  exists body, last_of choke_or_unchoke (somes c) = Some (1%N, body).
(** The last message that states a metadata size states [n], with the extensions [e]. *)
Inductive announced : list heard -> N -> hmap N -> Prop :=
| an_now c r m n e : parsed r m -> states_size m = Some (n, e) -> announced (c ++ [Some r]) n e
| an_before c o n e : announced c n e -> (forall r m, o = Some r -> parsed r m -> states_size m = None) ->
    announced (c ++ [o]) n e.
Definition willing (c : list heard) : Prop := unchoked c /\ exists n e, announced c n e /\ n <> 0%N.

(** A handshake for the torrent [ih]. *)
Definition greeting (ih : bytes) (o : heard) : Prop :=
  exists h, o = Some (19%N, h) /\ (68 <= List.length h)%nat /\ firstn 20 (skipn 28 h) = ih.

Definition starts {A} (a c : list A) : Prop := exists b, c = a ++ b.
Definition starts_before {A} (a c : list A) : Prop := exists b, b <> [] /\ c = a ++ b.

(** Eleven attempts in vain from the beginning, or ten after a message. *)
Definition fell_silent (b : list heard) : Prop :=
  (List.length b = 11%nat /\ Forall silent b) \/
  exists a o q, b = a ++ o :: q /\ ~ silent o /\ List.length q = 10%nat /\ Forall silent q.

(** How a session ends: no handshake for this torrent; the third write failed; the peer was not willing in
    time; it choked us; it fell silent; everything was received; the peer never named the extension needed
    to ask it for metadata. *)
Inductive ending := Refused | Cut | Unwilling | ChokedUs | FellSilent | Received (data : bytes) | Nameless.

Section Session.
  (** The torrent; whether the third write fails; what the blocks among some attempts are; how many blocks
      are needed, given the metadata size stated; whether blocks can be asked for. *)
  Variable ih : bytes.
  Variable cut : Prop.
  Variable got : list heard -> list bytes -> Prop.
  Variable needed : N -> N.
  Variable can_ask : list heard -> Prop.

  (** After each attempt a block is asked for unless one more block was asked for than received. *)
  Inductive asked_for : list heard -> N -> Prop :=
  | af_none : asked_for [] 0
  | af_waits b o n l : asked_for b n -> got (b ++ [o]) l -> (countN l + 1)%N = n -> asked_for (b ++ [o]) n
  | af_asks b o n l : asked_for b n -> got (b ++ [o]) l -> (countN l + 1)%N <> n -> asked_for (b ++ [o]) (n + 1)%N.
  Definition asks (b : list heard) : Prop :=
    exists b' o n l, b = b' ++ [o] /\ asked_for b' n /\ got b l /\ (countN l + 1)%N <> n.

  (** The peer becomes willing with the last attempt of [h :: a], not before, and states the size [n]. *)
  Definition opened (h : heard) (a : list heard) (n : N) : Prop :=
    greeting ih h /\ ~ cut /\ a <> [] /\ (List.length a <= 10)%nat /\
    unchoked (h :: a) /\ (exists e, announced (h :: a) n e) /\ n <> 0%N /\
    forall a', starts_before a' a -> ~ willing (h :: a').

  Definition lacking (n : N) (b : list heard) : Prop := forall l, got b l -> countN l <> needed n.
  (** Nothing in [b], read after [c], ends the session. *)
  Definition going (n : N) (c b : list heard) : Prop :=
    lacking n b /\ unchoked (c ++ b) /\ (asks b -> can_ask (c ++ b)) /\ ~ fell_silent b.

  (** The session goes on after [c]. *)
  Inductive pending : list heard -> Prop :=
  | pe_start : pending []
  | pe_opening h a : greeting ih h -> ~ cut -> (List.length a < 10)%nat ->
      (forall a', starts a' a -> ~ willing (h :: a')) -> pending (h :: a)
  | pe_blocks h a n b : opened h a n -> (forall b', starts b' b -> going n (h :: a) b') -> pending (h :: a ++ b).

  (** The session ends with the last attempt of [c]. *)
  Inductive ends : list heard -> ending -> Prop :=
  | en_refused o : ~ greeting ih o -> ends [o] Refused
  | en_cut h : greeting ih h -> cut -> ends [h] Cut
  | en_unwilling h a : greeting ih h -> ~ cut -> List.length a = 10%nat ->
      (forall a', starts a' a -> ~ willing (h :: a')) -> ends (h :: a) Unwilling
  | en_received h a n b l : opened h a n -> (forall b', starts_before b' b -> going n (h :: a) b') ->
      b <> [] -> got b l -> countN l = needed n -> ends (h :: a ++ b) (Received (List.concat l))
  | en_choked h a n b : opened h a n -> (forall b', starts_before b' b -> going n (h :: a) b') ->
      b <> [] -> lacking n b -> ~ unchoked (h :: a ++ b) -> ends (h :: a ++ b) ChokedUs
  | en_nameless h a n b : opened h a n -> (forall b', starts_before b' b -> going n (h :: a) b') ->
      b <> [] -> lacking n b -> unchoked (h :: a ++ b) -> asks b -> ~ can_ask (h :: a ++ b) -> ends (h :: a ++ b) Nameless
  | en_silent h a n b : opened h a n -> (forall b', starts_before b' b -> going n (h :: a) b') ->
      b <> [] -> lacking n b -> unchoked (h :: a ++ b) -> (asks b -> can_ask (h :: a ++ b)) -> fell_silent b ->
      ends (h :: a ++ b) FellSilent.
End Session.

(** The blocks of a piece; those of the metadata; the extension needed to ask for metadata. *)
Definition piece_blocks (c : list heard) (l : list bytes) : Prop := blocks c = l.
Definition named (c : list heard) : Prop := exists n e, announced c n e /\ hm_get e (s2b "ut_metadata") <> None.

(** A session to fetch a piece of [k] blocks, and one to fetch metadata. *)
Definition piece_pending (ih : bytes) (cut : Prop) (k : N) := pending ih cut piece_blocks (fun _ => k) (fun _ => True).
Definition piece_ends (ih : bytes) (cut : Prop) (k : N) := ends ih cut piece_blocks (fun _ => k) (fun _ => True).
Definition info_pending (ih : bytes) (cut : Prop) := pending ih cut metadata_blocks (fun n => piece_count n 16384) named.
Definition info_ends (ih : bytes) (cut : Prop) := ends ih cut metadata_blocks (fun n => piece_count n 16384) named.

(** The attempts of [c] are made on [s], and nothing read aborts or hangs the client. *)
Definition told_by (s : stream) (c : list heard) : Prop := delivers s c /\ Forall legible c.
(** After [c], the next message aborts, or hangs, the client. *)
Definition then_aborts (s : stream) (c : list heard) : Prop :=
  Forall legible c /\ exists id body, delivers s (c ++ [Some (id, body)]) /\ unreadable body id.
Definition then_hangs (s : stream) (c : list heard) : Prop :=
  Forall legible c /\ exists id body, delivers s (c ++ [Some (id, body)]) /\ endless body id.

(** What the client returns for a piece with hash [hash], and for metadata, when a session ends so. *)
Inductive piece_result (sha1 : bytes -> bytes) (hash : bytes) : ending -> result bytes manager_error -> Prop :=
| pr_refused : piece_result sha1 hash Refused (Err MEHandshake)
| pr_cut : piece_result sha1 hash Cut (Err MEHandshakeMetadata)
| pr_unwilling : piece_result sha1 hash Unwilling (Err MEPeerNotReady)
| pr_choked : piece_result sha1 hash ChokedUs (Err (MEPieceDownloadFailure ChokedPeer))
| pr_silent : piece_result sha1 hash FellSilent (Err (MEPieceDownloadFailure Idle))
| pr_right d : sha1 d = hash -> piece_result sha1 hash (Received d) (Ok d)
| pr_wrong d : sha1 d <> hash -> piece_result sha1 hash (Received d) (Err MEPieceVerificationFailure).
Inductive info_result : ending -> result info manager_error -> Prop :=
| ir_refused : info_result Refused (Err MEHandshake)
| ir_cut : info_result Cut (Err MEHandshakeMetadata)
| ir_unwilling : info_result Unwilling (Err MEPeerNotReady)
| ir_choked : info_result ChokedUs (Err (MEDownload ChokedPeer))
| ir_silent : info_result FellSilent (Err (MEDownload Idle))
| ir_right d i : info_from_bytes d = Ret (Ok i) -> info_result (Received d) (Ok i)
| ir_wrong d e : info_from_bytes d = Ret (Err e) -> info_result (Received d) (Err (MEInfo e)).
