(** SpecSeeds: the order of the requests, and torrents whose peers answer what they are asked. *)
From Verif Require Import Base ModelTorrent ModelTracker ModelStream ModelPeer ModelActors ModelMain ModelLive
  SpecWriter SpecSystem SpecSession SpecLive.

(** The pieces whose download has failed, as the torrent has learned of it, oldest first. *)
Definition failed_pieces (tr : list event) : list N :=
  flat_map (fun m => match m with PieceDownloadFailed _ idx => [idx] | _ => [] end) (handled tr).

(** A server that has the content [T] of the torrent that [i] describes, and lets the client begin. *)
Definition has_all (sha1 : bytes -> bytes) (i : info) (T : bytes) (v : server) : Prop :=
  sd_ih v = compute_info_hash sha1 i /\ welcoming some_size v /\ no_blocks v /\
  forall idx, (idx < piece_count (lenN T) (i_piece_length i))%N -> sd_piece v idx = torrent_piece T (i_piece_length i) idx.

(** If the step is the end of a download for torrent number [t], then the connection went as one with such a server; it was given
    [time] attempts to read, and ten for each block. *)
Definition served (sha1 : bytes -> bytes) (p : profile) (time : nat) (T : bytes) (t : nat) (s : process) (o : pop) : Prop :=
  match o with
  | PFinish u k net pid fuel => u = t -> forall x r, nth_error (pr_torrents s) t = Some x -> nth_error (sy_working x) k = Some r ->
      exists v, has_all sha1 (rq_info r) T v /\ List.length pid = 20%nat /\
        (time + 10 * N.to_nat (piece_count (i_piece_length (rq_info r)) 16384) <= fuel)%nat /\
        download sha1 p fuel net pid (rq_endpoint r) (rq_info r) (rq_idx r)
          = download_l serving (server_hears v) server_says sha1 p fuel [] newly pid (rq_endpoint r) (rq_info r) (rq_idx r)
  | _ => True
  end.

(** Pieces of whole blocks, or only one piece; numbers that fit in the messages. *)
Definition well_shaped (i : info) (T : bytes) : Prop :=
  (i_piece_length i mod 16384 = 0 \/ lenN T <= i_piece_length i)%N /\
  (i_piece_length i < 2 ^ 32)%N /\ (lenN T + i_piece_length i <= 2 ^ 64)%N /\ (piece_count (lenN T) (i_piece_length i) <= 2 ^ 32)%N.
