(** SpecLookup: what a tracker is asked and what its answer means, without helpers of the model. *)
From Verif Require Import Base SpecBencode SpecMessages SpecTorrent SpecTracker.

(** The address of a peer. *)
Record address := { ad_1 : N; ad_2 : N; ad_3 : N; ad_4 : N; ad_port : N }.
Definition address_ok (a : address) : Prop :=
  (ad_1 a < 256 /\ ad_2 a < 256 /\ ad_3 a < 256 /\ ad_4 a < 256 /\ ad_port a < 65536)%N.
Definition address_text (a : address) : bytes := endpoint_text (ad_1 a) (ad_2 a) (ad_3 a) (ad_4 a) (ad_port a).

(** BEP 23: a list of peers, six bytes each. *)
Definition compact (l : list address) : bytes :=
  flat_map (fun a => [ad_1 a; ad_2 a; ad_3 a; ad_4 a] ++ big_endian 2 (ad_port a)) l.

(** A query of an HTTP tracker about [h] by [pid]. *)
Definition http_query (tracker h pid q : bytes) : Prop :=
  exists e, q = tracker ++ s2b "?info_hash=" ++ e ++ s2b "&peer_id=" ++ pid /\
    percent_decode e = Some h /\ Forall safe_char e.
