(** SpecSpeed: torrents whose peers are at a distance. *)
From Verif Require Import Base ModelTorrent ModelWriter ModelStream ModelPeer ModelLive ModelTimed ModelActors ModelMain
  SpecWriter SpecSystem SpecForever SpecSession SpecLive SpecTimed.

(** A server at the distance [rtt] that has the content [T] of the torrent that [i] describes. *)
Definition keeps (sha1 : bytes -> bytes) (i : info) (T : bytes) (rtt : N) (v : server) : Prop :=
  sd_ih v = compute_info_hash sha1 i /\ near rtt some_size v /\
  forall idx, (idx < piece_count (lenN T) (i_piece_length i))%N -> sd_piece v idx = torrent_piece T (i_piece_length i) idx.

(** Every download for torrent number [t] is from such a server, at a distance of at least [rtt] milliseconds: it began with some step [b], has
    occupied a worker since, came to the same end as the session with the server that begins then, and not before that one ends. *)
Definition from_afar (sha1 : bytes -> bytes) (p : profile) (cwd : loc) (d : fs) (ops : nat -> pop) (t : nat) (time : nat -> N)
  (rtt : N) (T : bytes) : Prop :=
  forall n k net pid fuel x r, ops n = PFinish t k net pid fuel -> torrent_at sha1 p cwd d ops t n = Some x -> nth_error (sy_working x) k = Some r ->
  exists b far_away v res ended, (b < n)%nat /\
    (forall j y, (b < j <= n)%nat -> torrent_at sha1 p cwd d ops t j = Some y -> In (rq_idx r) (map rq_idx (sy_working y))) /\
    (rtt <= far_away)%N /\ keeps sha1 (rq_info r) T far_away v /\ List.length pid = 20%nat /\
    (1 + 10 * N.to_nat (piece_count (i_piece_length (rq_info r)) 16384) <= fuel)%nat /\
    download sha1 p fuel net pid (rq_endpoint r) (rq_info r) (rq_idx r) = Ret res /\
    download_t serving (far far_away v) sha1 p fuel (time b) [] newly pid (rq_endpoint r) (rq_info r) (rq_idx r) = Ret (res, ended) /\
    (ended <= time n)%N.

(** Of some pieces, those that are not cut off by the end of the torrent. *)
Definition whole_pieces (T : bytes) (plen : N) (l : list N) : list N := filter (fun idx => (idx + 1) * plen <=? lenN T)%N l.

(** Such a server is read from for at most [opens] milliseconds until the client is ready to ask, and takes at most [most] for a block itself. *)
Definition quick (sha1 : bytes -> bytes) (i : info) (T : bytes) (rtt opens most : N) (v : server) : Prop :=
  keeps sha1 i T rtt v /\ (forall now, ready_at rtt v now <= now + opens)%N /\ (forall m, N.of_nat (sd_delay v m) <= most)%N.
(** Every download for torrent number [t] ends at most [late] milliseconds after the session would with such a server, at a distance of at most
    [rtt], that began with some step [b] before. *)
Definition punctual (sha1 : bytes -> bytes) (p : profile) (cwd : loc) (d : fs) (ops : nat -> pop) (t : nat) (time : nat -> N)
  (rtt opens most late : N) (T : bytes) : Prop :=
  forall n x r, torrent_at sha1 p cwd d ops t n = Some x -> In r (sy_working x) ->
  exists b far_away v pid fuel res ended, (b <= n)%nat /\ (far_away <= rtt)%N /\ quick sha1 (rq_info r) T far_away opens most v /\
    List.length pid = 20%nat /\ (1 + 10 * N.to_nat (piece_count (i_piece_length (rq_info r)) 16384) <= fuel)%nat /\
    download_t serving (far far_away v) sha1 p fuel (time b) [] newly pid (rq_endpoint r) (rq_info r) (rq_idx r) = Ret (res, ended) /\
    exists m y, (n <= m)%nat /\ (time m <= ended + late)%N /\ torrent_at sha1 p cwd d ops t m = Some y /\ ~ In (rq_idx r) (map rq_idx (sy_working y)).
