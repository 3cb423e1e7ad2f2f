(** PropExact: C18, C20, C23, C24, C31, C32 and C65 in their corners *)
From Verif Require Import Base ModelTorrent ModelWriter ModelTracker ModelStream ModelPeer ModelActors ModelCache
  ModelMain ModelSha1 SpecBencode SpecMessages SpecTorrent SpecTracker SpecWriter SpecStream SpecMain SpecDisk SpecExact
  PropStream PropMain PropDisk ProofExact.

(** C18: exactly what the forty characters of a link stand for, whether they are hexadecimal digits or not:
    a release build always gets twenty bytes out of them, a debug build panics exactly if one comes before "0". *)
Theorem C18_any_characters : forall m, bytes_ok m -> firstn 8 m = s2b "magnet:?" -> nth_error m 60 = Some 38%N ->
  let h := firstn 40 (skipn 20 m) in
  parse_magnet Release m = Ret (Ok (read_pairs h)) /\
  ((exists b, In b h /\ (b < 48)%N) -> parse_magnet Debug m = Panic) /\
  (Forall (fun b => 48 <= b)%N h -> parse_magnet Debug m = Ret (Ok (read_pairs h))).
Proof. exact c18_exact. Qed.
Print Assumptions C18_any_characters.
Definition xe_link (h : bytes) : bytes := s2b "magnet:?" ++ s2b "xt=urn:btih:" ++ h ++ s2b "&".
Example C18_example_characters :
  parse_magnet Debug (xe_link (s2b "zG:9" ++ repeat 49%N 36)) = Ret (Ok (48 :: 169 :: repeat 17 18)%N) /\
  parse_magnet Release (xe_link (s2b "/a ." ++ repeat 49%N 36)) = Ret (Ok (250 :: 254 :: repeat 17 18)%N) /\
  parse_magnet Debug (xe_link (s2b "/a ." ++ repeat 49%N 36)) = Panic.
Proof. vm_compute. auto. Qed.

(** C20: a peer is reported to the torrent exactly if its text is an address and the connection is made. *)
Theorem C20_reachable : forall connects ep, is_reachable connects ep = true <->
  exists a b c d port k, (a < 256 /\ b < 256 /\ c < 256 /\ d < 256 /\ port < 65536)%N /\
    ep = decimal a ++ s2b "." ++ decimal b ++ s2b "." ++ decimal c ++ s2b "." ++ decimal d ++ s2b ":" ++ repeat 48%N k ++ decimal port /\
    connects (a, b, c, d, port) = true.
Proof. exact c20_reachable. Qed.
Print Assumptions C20_reachable.
Example C20_example_reachable : let up := fun '(_, _, _, _, port) => (port =? 80)%N in
  is_reachable up (s2b "10.0.0.1:080") = true /\ is_reachable up (s2b "10.0.0.1:81") = false /\ is_reachable up (s2b "10.0.0.01:80") = false.
Proof. vm_compute. auto. Qed.

(** C23: the peer id that is generated is any twenty letters and digits; ... *)
Theorem C23_peer_id : forall pid, valid_peer_id pid = true <-> peer_id_text pid.
Proof. exact c23_peer_id. Qed.
Print Assumptions C23_peer_id.

(** C23: ... a tracker that reads the request the way servers do gets exactly the hash and the peer id. *)
Theorem C23_query_read : forall base h pid, ~ In 63%N base -> bytes_ok h -> peer_id_text pid ->
  read_query (tcp_request_url base h pid) = Some (base, [Some (s2b "info_hash", h); Some (s2b "peer_id", pid)]).
Proof. exact c23_read. Qed.
Print Assumptions C23_query_read.
(** C23: with a tracker whose URL has a query already, it does not. *)
Theorem C23_query_read_refuted : exists base h pid, bytes_ok h /\ List.length h = 20%nat /\ peer_id_text pid /\
  forall b fields, read_query (tcp_request_url base h pid) = Some (b, fields) -> ~ In (Some (s2b "info_hash", h)) fields.
Proof.
  exists (s2b "http://t/announce?key=1"), (repeat 38%N 20), (repeat 65%N 20).
  split; [apply Forall_forall; intros b I; apply repeat_spec in I as ->; reflexivity|]. split; [reflexivity|].
  split; [split; [reflexivity|apply Forall_forall; intros b I; apply repeat_spec in I as ->; lia]|].
  intros b fields E. vm_compute in E. injection E as _ <-. vm_compute. intuition discriminate.
Qed.
Print Assumptions C23_query_read_refuted.
Example C23_example_read : peer_id_text (s2b "abcdefghijABCDEFGHIJ") /\
  tcp_request_url (s2b "http://t:80/announce") [38; 61; 37; 65]%N (s2b "abcdefghijABCDEFGHIJ")
  = s2b "http://t:80/announce?info_hash=%26%3D%25A&peer_id=abcdefghijABCDEFGHIJ".
Proof. split; [apply C23_peer_id; vm_compute; reflexivity|vm_compute; reflexivity]. Qed.

(** C24: a file list whose sizes add up to 2^64 or more, [f] being the file that crosses the limit. Pieces that
    end before [f] are not affected. For the others a debug build panics; a release build panics as well if the
    piece starts below the excess, and otherwise writes what belongs into the files before [f] and silently
    drops the rest of the piece. *)
Theorem C24_sizes_overflow : forall fs f piece idx plen, piece <> [] -> (idx * plen + lenN piece < 2 ^ 64)%N ->
  (total_length fs < 2 ^ 64)%N -> (f_length f < 2 ^ 64)%N -> (2 ^ 64 <= total_length fs + f_length f)%N ->
  ((idx * plen + lenN piece <= total_length fs)%N -> forall p rest,
     get_file_writers p (fs ++ f :: rest) piece idx plen = get_file_writers p fs piece idx plen) /\
  ((total_length fs < idx * plen + lenN piece)%N ->
     (forall rest, get_file_writers Debug (fs ++ f :: rest) piece idx plen = Panic) /\
     ((idx * plen < total_length fs + f_length f - 2 ^ 64)%N -> forall rest,
        get_file_writers Release (fs ++ f :: rest) piece idx plen = Panic) /\
     ((total_length fs + f_length f - 2 ^ 64 <= idx * plen)%N ->
        get_file_writers Release (fs ++ [f]) piece idx plen = get_file_writers Release fs piece idx plen)).
Proof. exact c24_overflow. Qed.
Print Assumptions C24_sizes_overflow.
Definition xe_file (n : N) : file := {| f_path := [s2b "x"]; f_length := n |}.
Example C24_example_overflow :
  let fs := [xe_file (2 ^ 64 - 4)] in
  get_file_writers Debug (fs ++ [xe_file 6]) [1; 2; 3]%N (2 ^ 64 - 5) 1 = Panic /\
  (exists w, get_file_writers Release (fs ++ [xe_file 6]) [1; 2; 3]%N (2 ^ 64 - 5) 1 = Ret [w] /\ fw_piece w = [1%N]) /\
  get_file_writers Release [xe_file (2 ^ 63 + 3); xe_file (2 ^ 64 - 1)] [1; 2; 3]%N (2 ^ 63 + 1) 1 = Panic.
Proof. cbv zeta. split; [vm_compute; reflexivity|]. split; [eexists; split; vm_compute; reflexivity|vm_compute; reflexivity]. Qed.

(** C24: a piece whose place is beyond 2^64: a debug build panics, a release build writes it at the place
    taken modulo 2^64. *)
Theorem C24_place_overflow : forall files piece idx plen, (2 ^ 64 <= idx * plen)%N ->
  get_file_writers Debug files piece idx plen = Panic /\
  get_file_writers Release files piece idx plen = get_file_writers Release files piece ((idx * plen) mod 2 ^ 64) 1.
Proof. exact c24_place. Qed.
Print Assumptions C24_place_overflow.
Example C24_example_place :
  exists w, get_file_writers Release [xe_file 9] [1; 2; 3]%N (2 ^ 61) 8 = Ret [w] /\ fw_start w = 0%N /\ fw_piece w = [1; 2; 3]%N.
Proof. eexists. split; [vm_compute; reflexivity|]. split; reflexivity. Qed.

(** C31: an error at the first look into the socket (a timeout, or worse) is reported as "no message" and loses nothing. *)
Theorem C31_read_error : forall s ticks, st_sched s = TErr :: ticks ->
  exists s', read_stream s = (None, s') /\ st_avail s' = st_avail s /\ st_closed s' = st_closed s /\ st_sched s' = ticks /\ st_sent s' = st_sent s.
Proof. exact c31_error. Qed.
Print Assumptions C31_read_error.
Example C31_example_error :
  let s := ex_stream (frame 1 []) [TErr] in
  fst (read_stream s) = None /\ fst (read_stream (snd (read_stream s))) = Some ([], 1%N, 0%N).
Proof. vm_compute. auto. Qed.

(** C32: a peer that closes the connection after the four bytes of a length has sent no message, but one is read:
    for a length of 0 (a keep-alive) or 1 it is a choke message, for any other length it is "no message". *)
Theorem C32_end_is_choke : forall s n, (n < 2 ^ 32)%N -> st_avail s = big_endian 4 n -> st_closed s = true ->
  Forall (fun t => t <> TErr) (st_sched s) ->
  fst (read_stream s) = (if (n <=? 1)%N then Some ([], 0%N, 0%N) else None).
Proof. exact c31_end. Qed.
Print Assumptions C32_end_is_choke.
Example C32_example_end :
  fst (read_stream (snd (env_step (ex_stream [0; 0; 0; 0]%N [TClose])))) = Some ([], 0%N, 0%N).
Proof. vm_compute. reflexivity. Qed.

(** C65: a torrent that aborts while getting its description never gets one, never requests a piece and never has
    one written, whatever happens afterwards: its record of messages stays as it was. *)
Theorem C65_no_description_is_final : forall sha1 p cwd s t x k ep accept fuel net pid shuffle ops,
  nth_error (pr_torrents s) t = Some x -> ta_info (sy_actor x) = None -> sy_dead x = false ->
  nth_error (sy_mail x) k = Some (PeerFound ep) ->
  collect_info accept fuel cwd (pr_disk s) net pid (ta_info_hash (sy_actor x)) ep = Panic -> Forall pop_ok ops ->
  exists x', nth_error (pr_torrents (pr_run sha1 p cwd s (PHandle t k accept fuel net pid shuffle :: ops))) t = Some x' /\
    ta_info (sy_actor x') = None /\ sy_trace x' = sy_trace x.
Proof. exact c65_no_description. Qed.
Print Assumptions C65_no_description_is_final.
Example C65_example_no_description :
  let h := xm_hash (s2b "x") xm_a in
  let s := pr_run sha1 Debug xm_cwd (process_init (xd_one [s2b "home"; s2b "downloads"] (NFile []))) (xm_add h) in
  exists x ep, nth_error (pr_torrents s) 0 = Some x /\ ta_info (sy_actor x) = None /\ sy_dead x = false /\
    nth_error (sy_mail x) 0 = Some (PeerFound ep) /\
    collect_info 9 9 xm_cwd (pr_disk s) None xm_pid (ta_info_hash (sy_actor x)) ep = Panic.
Proof. cbv zeta. eexists _, _. split; [vm_compute; reflexivity|]. split; [reflexivity|]. split; [reflexivity|]. split; [vm_compute; reflexivity|vm_compute; reflexivity]. Qed.
