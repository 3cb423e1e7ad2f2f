(** PropCache: properties C51-C53 (the torrent description kept between runs) *)
From Verif Require Import Base Utf8 ModelBencode ModelTorrent ModelWriter ModelTracker ModelStream ModelPeer ModelCache
  SpecBencode SpecTorrent SpecMessages SpecStream SpecCache SpecSession PropPeer PropSession ProofCache2.

(** C51: a description whose saving succeeded reads back as itself, and saving touches no other file. *)
Theorem C51_reads_back : forall accept d l i d', rust_info i -> save accept d l i = Ret (Ok tt, d') ->
  from_file d' l = Ret (Ok i) /\ same_elsewhere [l] d d'.
Proof. exact c51_reads_back. Qed.
Print Assumptions C51_reads_back.

(** C51: white space after it (an editor's final newline, say) does not matter. *)
Theorem C51_trailing_space : forall d l i ws, rust_info i ->
  Forall (fun b => In b [32; 10; 9; 13]%N) ws ->
  d l = Some (NFile (js_info i ++ ws)) -> from_file d l = Ret (Ok i).
Proof. exact c51_spaces. Qed.
Print Assumptions C51_trailing_space.

(** C51: once a description was obtained and written, every later start gets the same description,
    whatever the network does and without changing anything on disk. *)
Theorem C51_restart : forall accept fuel cwd d net pid ih ep i d',
  (forall s, net = Some s -> octets (incoming s)) ->
  collect_info accept fuel cwd d net pid ih ep = Ret (Some i, d') ->
  (List.length (js_info i) <= accept)%nat ->
  forall accept2 fuel2 net2 pid2 ep2, collect_info accept2 fuel2 cwd d' net2 pid2 ih ep2 = Ret (Some i, d').
Proof. exact c51_restart. Qed.
Print Assumptions C51_restart.

(** C51: getting a description changes nothing outside <cwd>/downloads/<hash>. *)
Theorem C51_elsewhere : forall accept fuel cwd d net pid ih ep r d',
  collect_info accept fuel cwd d net pid ih ep = Ret (r, d') ->
  same_elsewhere [cwd ++ [s2b "downloads"]; in_downloads cwd (encode_binary ih)] d d'.
Proof. exact c51_elsewhere. Qed.
Print Assumptions C51_elsewhere.

Definition ex_desc : info :=
  {| i_files := Some [{| f_path := [s2b "a b"; [195; 169; 34; 10; 1]%N]; f_length := 3 |};
                      {| f_path := []; f_length := 18446744073709551615 |}];
     i_length := None; i_name := s2b "dir\x"; i_piece_length := 16384; i_pieces := [0; 255; 7]%N |}.

(** [s] with every ' turned into a double quote. *)
Definition q (s : string) : bytes := map (fun b => if (b =? 39)%N then 34%N else b) (s2b s).

Example C51_example :
  rust_info ex_desc /\
  (exists d', save 1000 (fun _ => None) [s2b "f"] ex_desc = Ret (Ok tt, d') /\
     d' [s2b "f"] = Some (NFile (q "{'files':[{'path':['a b','" ++ [195; 169]%N ++ q "\'\n\u0001'],'length':3},{'path':[],'length':18446744073709551615}],'length':null,'name':'dir\\x','piece_length':16384,'pieces':[0,255,7]}")) /\
     from_file d' [s2b "f"] = Ret (Ok ex_desc)) /\
  (* other layouts are read as well: order, white space, unknown fields, escapes *)
  info_from_json (q " { 'pieces' : [ 1 , 2 ] , 'comment' : { 'x' : [ -1.5e3 , true , '\ud800' ] } , 'name' : '\u00e9\uD83d\uDE00\/' , 'piece_length' : 5 } ")
    = Some {| i_files := None; i_length := None; i_name := [195; 169; 240; 159; 152; 128; 47]%N; i_piece_length := 5; i_pieces := [1; 2]%N |} /\
  info_from_json (q "[null,7,'n',1,[]]") = Some {| i_files := None; i_length := Some 7%N; i_name := s2b "n"; i_piece_length := 1; i_pieces := [] |} /\
  (* and these are not *)
  map info_from_json [[]; q "{}"; q "{'name':'x','piece_length':1,'pieces':[256]}"; q "{'name':'x','piece_length':-1,'pieces':[]}";
    q "{'name':'x','name':'x','piece_length':1,'pieces':[]}"; q "{'name':'x','piece_length':1,'pieces':[],}"; q "{'name':'x','piece_length':01,'pieces':[]}";
    q "{'name':'\ud800','piece_length':1,'pieces':[]}"; q "{'name':'x','piece_length':1,'pieces':[]}x"] = repeat None 9.
Proof.
  assert (R : rust_info ex_desc).
  { unfold rust_info, ex_desc, rust_file, usize, octets. cbn [i_files i_length i_name i_piece_length i_pieces].
    repeat split; try discriminate; try reflexivity.
    - intros l E. injection E as <-. repeat constructor; cbn; reflexivity.
    - repeat constructor. }
  split; [exact R|]. split; [|split; [|split]; vm_compute; reflexivity].
  eexists. split; [vm_compute; reflexivity|]. split; vm_compute; reflexivity.
Qed.

(** C52: if saving stops before the last byte, the file that is left makes the next read panic
    (or, when the cut is inside a non-ASCII character, counts as absent). *)
Theorem C52_interrupted_save : forall i d l k r d', rust_info i -> (k < List.length (js_info i))%nat ->
  save k d l i = Ret (r, d') ->
  (exists e, r = Err e) /\
  (from_file d' l = Panic \/ (exists e, from_file d' l = Ret (Err e)) /\ ~ ascii_info i).
Proof. exact save_cut. Qed.
Print Assumptions C52_interrupted_save.

(** C52: so a torrent whose description could only be written in part never starts again, whatever
    the network does. *)
Theorem C52_never_starts_again : forall accept fuel cwd d net pid ih ep i d',
  (forall s, net = Some s -> octets (incoming s)) ->
  d (in_downloads cwd (encode_binary ih)) = None ->
  collect_info accept fuel cwd d net pid ih ep = Ret (Some i, d') ->
  (accept < List.length (js_info i))%nat -> ascii_info i ->
  forall accept2 fuel2 net2 pid2 ep2, collect_info accept2 fuel2 cwd d' net2 pid2 ih ep2 = Panic.
Proof. exact c52_restart. Qed.
Print Assumptions C52_never_starts_again.

(** A first start with a peer that has the metadata, on a disk that takes 30 bytes, and on one that
    takes everything; then a second start without any peer. *)
Definition ex_start accept (d : fs) net := collect_info accept 3 [s2b "home"] d net (repeat 1%N 20) ex_hash (s2b "10.0.0.1:6881").
Definition ex_peer : option stream := Some (info_seed ex_hash (repeat 8%N 20) 54 3 [ex_info_bytes]).
Example C52_example :
  (exists i d', ex_start 1000 (fun _ => None) ex_peer = Ret (Some i, d') /\ i_name i = s2b "x" /\
     ex_start 0 d' None = Ret (Some i, d')) /\
  (exists d', ex_start 1000 (fun _ => None) None = Ret (None, d') /\ d' [s2b "home"; s2b "downloads"] = Some NDir).
Proof.
  split.
  - do 2 eexists. split; [vm_compute; reflexivity|]. repeat split; vm_compute; reflexivity.
  - eexists. split; vm_compute; reflexivity.
Qed.

(** C52: hence an interrupted save is not harmless: the next start, with the same peer or none, panics. *)
Theorem C52_harmless_refuted : exists i d', ex_start 30 (fun _ => None) ex_peer = Ret (Some i, d') /\
  i_name i = s2b "x" /\ ex_start 1000 d' None = Panic /\ ex_start 1000 d' ex_peer = Panic.
Proof. do 2 eexists. split; [vm_compute; reflexivity|]. repeat split; vm_compute; reflexivity. Qed.
Print Assumptions C52_harmless_refuted.

(** C53: a stored description is used whatever it describes. *)
Theorem C53_cache_trusted : forall i ih cwd d accept fuel net pid ep, rust_info i ->
  d (cwd ++ [s2b "downloads"]) = Some NDir ->
  d (in_downloads cwd (encode_binary ih)) = Some (NFile (js_info i)) ->
  collect_info accept fuel cwd d net pid ih ep = Ret (Some i, d).
Proof. exact c53. Qed.
Print Assumptions C53_cache_trusted.

(** C53: so it need not have the info hash that was asked for. *)
Theorem C53_cache_verified_refuted : forall sha1 : bytes -> bytes, exists i ih d, List.length ih = 20%nat /\
  compute_info_hash sha1 i <> ih /\
  forall accept fuel net pid ep, collect_info accept fuel [] d net pid ih ep = Ret (Some i, d).
Proof.
  intros sha1.
  assert (I : exists ih : bytes, List.length ih = 20%nat /\ compute_info_hash sha1 ex_desc <> ih).
  { destruct (bytes_eqb (compute_info_hash sha1 ex_desc) (repeat 0%N 20)) eqn:E.
    - exists (repeat 1%N 20). split; [reflexivity|]. intros X. rewrite X in E. vm_compute in E. discriminate.
    - exists (repeat 0%N 20). split; [reflexivity|]. intros X. rewrite X in E. vm_compute in E. discriminate. }
  destruct I as (ih & L & N). exists ex_desc, ih,
    (fs_set (fs_set (fun _ => None) [s2b "downloads"] NDir) (in_downloads [] (encode_binary ih)) (NFile (js_info ex_desc))).
  split; [exact L|]. split; [exact N|]. intros.
  apply c53; [exact (proj1 C51_example)| |apply set_same]. rewrite set_other; [apply set_same|discriminate].
Qed.
Print Assumptions C53_cache_verified_refuted.

(** C53: the descriptions of different torrents are kept in different files. *)
Theorem C53_own_file : forall cwd ih ih', octets ih -> octets ih' ->
  in_downloads cwd (encode_binary ih) = in_downloads cwd (encode_binary ih') -> ih = ih'.
Proof. exact c53_own_file. Qed.
Print Assumptions C53_own_file.

Example C53_example : encode_binary ex_hash <> encode_binary (repeat 1%N 20) /\
  in_downloads [s2b "home"] (encode_binary (s2b "0123456789/bcdefghij")) = [s2b "home"; s2b "downloads"; s2b "0123456789%2Fbcdefghij"].
Proof. split; [vm_compute; discriminate|vm_compute; reflexivity]. Qed.
