(** SpecExact: exact results in the corners of C18, C20, C23 and C24, without helpers of the model. *)
From Verif Require Import Base SpecBencode SpecMessages SpecTorrent SpecTracker SpecWriter.

(** What a character counts as in the info hash of a link: letters continue after "9" (so "g" is 16),
    everything else is its distance from "0", on a circle of 256. *)
Definition digit_of (b : N) : N :=
  if ((65 <=? b) && (b <=? 90))%N then (b - 55)%N
  else if ((97 <=? b) && (b <=? 122))%N then (b - 87)%N
  else ((b + 208) mod 256)%N.
(** Two characters make a byte: the low half of the first digit, and all bits of the second. *)
Fixpoint read_pairs (s : bytes) : bytes :=
  match s with
  | x :: y :: t => N.lor ((16 * digit_of x) mod 256) (digit_of y) :: read_pairs t
  | _ => []
  end.

(** How a server reads a URL: the query starts behind the first "?", fields are separated by "&", each has a
    name and a value separated by the first "=", and the value is percent-encoded. *)
Fixpoint cut_at (c : N) (s : bytes) : option (bytes * bytes) :=
  match s with
  | [] => None
  | b :: t => if (b =? c)%N then Some ([], t) else option_map (fun '(x, y) => (b :: x, y)) (cut_at c t)
  end.
Fixpoint split_on (c : N) (s : bytes) : list bytes :=
  match s with
  | [] => [[]]
  | b :: t => if (b =? c)%N then [] :: split_on c t
              else match split_on c t with [] => [[b]] | x :: r => (b :: x) :: r end
  end.
Definition read_field (s : bytes) : option (bytes * bytes) :=
  match cut_at 61 s with
  | Some (name, v) => option_map (fun w => (name, w)) (percent_decode v)
  | None => None
  end.
Definition read_query (url : bytes) : option (bytes * list (option (bytes * bytes))) :=
  option_map (fun '(base, q) => (base, map read_field (split_on 38 q))) (cut_at 63 url).

(** Twenty ASCII letters and digits. *)
Definition peer_id_text (pid : bytes) : Prop :=
  List.length pid = 20%nat /\ Forall (fun b => 48 <= b <= 57 \/ 65 <= b <= 90 \/ 97 <= b <= 122)%N pid.
