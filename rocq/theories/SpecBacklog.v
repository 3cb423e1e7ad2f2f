(** SpecBacklog: the data of a torrent that wait in memory. No helpers of the model. *)
From Verif Require Import Base ModelTorrent ModelStream ModelPeer ModelWriter ModelActors ModelMain SpecTorrent SpecWriter SpecPieces SpecSystem SpecResume.

(** Pieces that have been downloaded and not yet written: in the queue of the writer, or on their way there. *)
Definition unwritten (s : sys) : list (N * bytes) := map (fun r => (rd_idx r, rd_piece r)) (sy_writer s) ++ on_its_way s.
(** Their bytes. *)
Definition backlog (s : sys) : N := sumN (map (fun x => lenN (snd x)) (unwritten s)).
(** A peer has sent wrong data with the right hash (and it may still be on its way to the writer). *)
Definition forged (sha1 : bytes -> bytes) (plen : N) (T : bytes) (s : sys) : Prop :=
  exists idx piece, In (idx, piece) (handed_over s ++ on_its_way s) /\
    piece <> torrent_piece T plen idx /\ sha1 piece = sha1 (torrent_piece T plen idx).
(** The same of the torrents of a process: torrent number [t] has the content [T t]. *)
Definition some_forged (sha1 : bytes -> bytes) (T : nat -> bytes) (s : process) : Prop :=
  exists t x i, nth_error (pr_torrents s) t = Some x /\ ta_info (sy_actor x) = Some i /\ forged sha1 (i_piece_length i) (T t) x.
(** The bytes that wait in memory, of all torrents. *)
Definition all_backlog (s : process) : N := sumN (map backlog (pr_torrents s)).
(** The length of all torrents that have been asked for. *)
Definition all_content (T : nat -> bytes) (s : process) : N := sumN (map (fun t => lenN (T t)) (seq 0 (List.length (pr_torrents s)))).
