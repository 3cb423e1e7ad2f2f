(** SpecDisk: what an execution may do to a disk. No helpers of the model. *)
From Verif Require Import Base ModelTorrent ModelWriter ModelActors ModelMain SpecTorrent SpecWriter SpecCache SpecText.

(** Directories stay; files stay files and, except at the locations [E], do not get shorter. *)
Definition kept_except (E : loc -> Prop) (d d' : fs) : Prop := forall l,
  (d l = Some NDir -> d' l = Some NDir) /\
  (forall c, d l = Some (NFile c) -> exists c', d' l = Some (NFile c') /\ (E l \/ (lenN c <= lenN c')%N)).

(** The place of a saved description of one of the torrents [hs]; [url_form] is the name of its file. *)
Definition description_of (url_form : bytes -> bytes) (cwd : loc) (hs : list bytes) (l : loc) : Prop :=
  exists h, In h hs /\ l = in_downloads cwd (url_form h).
(** A file whose bytes are not text. *)
Definition not_text (d : fs) (l : loc) : Prop :=
  exists c, d l = Some (NFile c) /\ ~ exists ns, text_of ns c.

(** The path of a file of a torrent of the process. *)
Definition some_file (s : process) (path : list bytes) : Prop :=
  exists x i files f, In x (pr_torrents s) /\ ta_info (sy_actor x) = Some i /\ consists_of i files /\
    In f files /\ path = f_path f.
(** All of them are plain: no "..", no "/", ... *)
Definition plain_paths (s : process) : Prop := forall path, some_file s path -> sane_path path.

(** What is at [l] now is there because a file of a torrent was written, or a directory made for one, ... *)
Definition for_a_file (cwd : loc) (s : process) (d d' : fs) (l : loc) : Prop :=
  exists path q r, some_file s path /\ path = q ++ r /\ l = cwd ++ q /\
    ((r = [] /\ exists c, d' l = Some (NFile c)) \/ (r <> [] /\ q <> [] /\ d l = None /\ d' l = Some NDir)).
(** ... or because a description was saved. *)
Definition for_a_description (url_form : bytes -> bytes) (cwd : loc) (hs : list bytes) (d d' : fs) (l : loc) : Prop :=
  (description_of url_form cwd hs l /\ exists c, d' l = Some (NFile c)) \/
  (l = cwd ++ [s2b "downloads"] /\ d l = None /\ d' l = Some NDir).

(** Something is in the way of the file at [path]: a file where a directory should be, or a directory in
    its place. *)
Definition blocked (cwd : loc) (d : fs) (path : list bytes) : Prop :=
  (exists q r c, path = q ++ r /\ q <> [] /\ r <> [] /\ d (cwd ++ q) = Some (NFile c)) \/ d (cwd ++ path) = Some NDir.
