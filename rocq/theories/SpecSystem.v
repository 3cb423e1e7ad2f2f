(** SpecSystem: a torrent being downloaded, seen from outside: where each piece is, what has been
    reported and requested, and what is left to do. *)
From Coq Require Import Permutation.
From Verif Require Import Base ModelTorrent ModelStream ModelPeer ModelWriter ModelActors SpecTorrent SpecWriter SpecPieces.

(** States that some schedule, some peers and some network lead to. *)
Definition reached (sha1 : bytes -> bytes) (p : profile) (cwd : loc) (ih : bytes) (d : fs) (s : sys) : Prop :=
  exists ops, Forall op_ok ops /\ s = sys_run sha1 p cwd (sys_init ih d) ops.

(** The number of pieces of a torrent with metadata [i]. *)
Definition pieces_of (p : profile) (i : info) (n : N) : Prop :=
  exists total, get_total_length p i = Ret total /\ (0 < i_piece_length i)%N /\ n = piece_count total (i_piece_length i).

(** ** Where the pieces are *)

(** Waiting to be requested. *)
Definition waiting (s : sys) : list N := match ta_pool (sy_actor s) with Some q => q | None => [] end.
(** Requested, and not yet answered as far as the torrent actor knows. *)
Definition answer_for (m : tmsg) : list N :=
  match m with
  | PeerFound _ => []
  | PieceDownloadSuccessfull _ _ idx | PieceDownloadFailed _ idx => [idx]
  end.
Definition in_flight (s : sys) : list N :=
  map rq_idx (sy_queue s) ++ map rq_idx (sy_working s) ++ flat_map answer_for (sy_mail s).
(** Handed to the writer, oldest first. *)
Definition to_writer (tr : list event) : list piece_ready :=
  flat_map (fun e => match e with Sent (ToWriter r) => [r] | _ => [] end) tr.
Definition completed (s : sys) : list N := map rd_idx (to_writer (sy_trace s)).

(** ** What has happened *)

Definition requested (tr : list event) : list piece_requested :=
  flat_map (fun e => match e with Sent (ToConnections r) => [r] | _ => [] end) tr.
Definition handled (tr : list event) : list tmsg :=
  flat_map (fun e => match e with Handled m => [m] | _ => [] end) tr.
Definition found_peers (ms : list tmsg) : list bytes :=
  flat_map (fun m => match m with PeerFound ep => [ep] | _ => [] end) ms.
Definition peer_reports (ops : list op) : list bytes :=
  flat_map (fun o => match o with OPeer ep => [ep] | _ => [] end) ops.
(** All peers reported so far. *)
Definition reported (s : sys) : list bytes := found_peers (handled (sy_trace s) ++ sy_mail s).
(** How many successes and failures were reported for an endpoint. *)
Definition successes (ep : bytes) (ms : list tmsg) : N :=
  lenN (filter (fun m => match m with PieceDownloadSuccessfull e _ _ => bytes_eqb e ep | _ => false end) ms).
Definition failures (ep : bytes) (ms : list tmsg) : N :=
  lenN (filter (fun m => match m with PieceDownloadFailed e _ => bytes_eqb e ep | _ => false end) ms).

(** ** The content of the torrent *)

(** The metadata describes the content [T]: its files are usable and together as long as [T], and
    its hashes are those of the pieces of [T]. *)
Definition describes (sha1 : bytes -> bytes) (i : info) (files : list file) (T : bytes) : Prop :=
  consists_of i files /\ total_length files = lenN T /\ (lenN T < 2 ^ 64)%N /\ (0 < i_piece_length i)%N /\
  good_files files /\
  forall idx, (idx < piece_count (lenN T) (i_piece_length i))%N ->
    firstn 20 (skipn (20 * N.to_nat idx) (i_pieces i)) = sha1 (torrent_piece T (i_piece_length i) idx).

(** Somebody sent wrong data with the right hash. *)
Definition collision (sha1 : bytes -> bytes) (plen : N) (T : bytes) (s : sys) : Prop :=
  exists r, In r (to_writer (sy_trace s)) /\
    rd_piece r <> torrent_piece T plen (rd_idx r) /\ sha1 (rd_piece r) = sha1 (torrent_piece T plen (rd_idx r)).

(** ** Work left *)

(** A weight for everything that still has to be done. *)
Definition mail_weight (m : tmsg) : N :=
  match m with PeerFound _ => 1 | PieceDownloadSuccessfull _ _ _ => 2 | PieceDownloadFailed _ _ => 5 end%N.
Definition work (s : sys) : N :=
  (4 * lenN (waiting s) + 4 * lenN (sy_queue s) + 3 * lenN (sy_working s)
   + sumN (map mail_weight (sy_mail s)) + lenN (sy_writer s))%N.

(** The step is a download that fails. *)
Definition fails (sha1 : bytes -> bytes) (p : profile) (s : sys) (o : op) : bool :=
  match o with
  | OFinish k net pid fuel =>
    match nth_error (sy_working s) k with
    | Some r => match download sha1 p fuel net pid (rq_endpoint r) (rq_info r) (rq_idx r) with
                | Ret (Err _) => true
                | _ => false
                end
    | None => false
    end
  | _ => false
  end.
Fixpoint failed_downloads (sha1 : bytes -> bytes) (p : profile) (cwd : loc) (s : sys) (ops : list op) : N :=
  match ops with
  | [] => 0
  | o :: t => (if fails sha1 p s o then 1 else 0) + failed_downloads sha1 p cwd (sys_step sha1 p cwd s o) t
  end%N.
(** Every step of the schedule does something. *)
Fixpoint no_idle_step (sha1 : bytes -> bytes) (p : profile) (cwd : loc) (s : sys) (ops : list op) : Prop :=
  match ops with
  | [] => True
  | o :: t => sys_step sha1 p cwd s o <> s /\ no_idle_step sha1 p cwd (sys_step sha1 p cwd s o) t
  end.

(** The pieces that the writer has dealt with, oldest first. *)
Definition written (s : sys) : list N :=
  map rd_idx (firstn (List.length (to_writer (sy_trace s)) - List.length (sy_writer s)) (to_writer (sy_trace s))).
