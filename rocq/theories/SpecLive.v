(** SpecLive: a remote end that answers what it is asked, without helpers of the model. *)
From Verif Require Import Base ModelBencode ModelMessages ModelStream ModelPeer SpecBencode SpecMessages SpecStream SpecPeer SpecSession SpecWriter.

(** A server: what it says after its handshake, when it hears that the client is interested, and when it hears an extension handshake;
    the pieces and the metadata that it has; the number under which it wants to be asked for metadata; how long it takes to answer a
    request; and where the network cuts a message into segments: after so many bytes each time, and how much later the rest comes. The
    time is counted in attempts of the client to read. *)
Record server := {
  sd_ih : bytes;
  sd_pid : bytes;
  sd_hello : list (nat * raw);
  sd_interested : list (nat * raw);
  sd_extended : list (nat * raw);
  sd_piece : N -> bytes;
  sd_metadata : bytes;
  sd_number : N;
  sd_delay : raw -> nat;
  sd_cuts : raw -> list (nat * nat)
}.

(** Its state: what it has heard and not understood yet, whether it has greeted, and what it is going to say. *)
Record serving := {
  sv_heard : bytes;
  sv_greeted : bool;
  sv_owes : list (nat * bytes)
}.
Definition newly : serving := {| sv_heard := []; sv_greeted := false; sv_owes := [] |}.

(** Part of some bytes, and a block of the metadata. *)
Definition part (b : bytes) (off len : N) : bytes := firstn (N.to_nat len) (skipn (N.to_nat off) b).
Definition metadata_reply (v : server) (k : N) : raw :=
  extension_message 1 [(s2b "msg_type", BInt 1); (s2b "piece", BInt k); (s2b "total_size", BInt (lenN (sd_metadata v)))]
    (part (sd_metadata v) (16384 * k) 16384).

(** Its answer to a message. A request for a block is answered if the block lies within the piece, a request for metadata if there is
    such a block; other messages are ignored. *)
Definition answer (v : server) (m : raw) : list (nat * raw) :=
  match m with
  | (2%N, _) => sd_interested v
  | (6%N, body) =>
    let idx := big_endian_value (firstn 4 body) in
    let off := big_endian_value (firstn 4 (skipn 4 body)) in
    let len := big_endian_value (skipn 8 body) in
    if ((lenN body =? 12) && (1 <=? len) && (off + len <=? lenN (sd_piece v idx)))%N
    then [(sd_delay v m, (7%N, firstn 8 body ++ part (sd_piece v idx) off len))] else []
  | (20%N, 0%N :: _) => sd_extended v
  | (20%N, body) =>
    match find (fun k => bytes_eqb body (sd_number v :: benc (metadata_request k)))
            (map N.of_nat (seq 0 (N.to_nat (piece_count (lenN (sd_metadata v)) 16384)))) with
    | Some k => [(sd_delay v m, metadata_reply v k)]
    | None => []
    end
  | _ => []
  end.

(** The segments in which messages arrive. *)
Fixpoint cut (q : nat) (l : list (nat * nat)) (b : bytes) : list (nat * bytes) :=
  match l with
  | (n, k) :: t => if (n <? List.length b)%nat then (q, firstn n b) :: cut k t (skipn n b) else [(q, b)]
  | [] => [(q, b)]
  end.
Definition encoded (v : server) (l : list (nat * raw)) : list (nat * bytes) :=
  flat_map (fun q => cut (fst q) (sd_cuts v (snd q)) (frame (fst (snd q)) (snd (snd q)))) l.

(** It takes the messages in the order in which they come; first a handshake. *)
Fixpoint understand (fuel : nat) (v : server) (r : serving) : serving :=
  match fuel with
  | O => r
  | S f =>
    let h := sv_heard r in
    if sv_greeted r then
      let n := N.to_nat (big_endian_value (firstn 4 h)) in
      if (4 <=? List.length h)%nat && (4 + n <=? List.length h)%nat then
        understand f v {| sv_heard := skipn (4 + n) h; sv_greeted := true;
          sv_owes := sv_owes r ++ match firstn n (skipn 4 h) with id :: body => encoded v (answer v (id, body)) | [] => [] end |}
      else r
    else if (68 <=? List.length h)%nat && bytes_eqb (firstn 20 (skipn 28 h)) (sd_ih v) then
      understand f v {| sv_heard := skipn 68 h; sv_greeted := true;
        sv_owes := sv_owes r ++ (O, handshake_layout (sd_ih v) (sd_pid v)) :: encoded v (sd_hello v) |}
    else r
  end.
Definition server_hears (v : server) (r : serving) (b : bytes) : serving :=
  let h := sv_heard r ++ b in
  understand (S (List.length h)) v {| sv_heard := h; sv_greeted := sv_greeted r; sv_owes := sv_owes r |}.

(** It says what is due, in order; the next segment comes one moment closer if nothing is due. *)
Fixpoint due_now (l : list (nat * bytes)) : list bytes :=
  match l with (O, b) :: t => b :: due_now t | _ => [] end.
Fixpoint due_later (l : list (nat * bytes)) : list (nat * bytes) :=
  match l with (O, _) :: t => due_later t | _ => l end.
Definition closer (l : list (nat * bytes)) : list (nat * bytes) :=
  match l with (S k, b) :: t => (k, b) :: t | _ => due_later l end.
Definition server_says (r : serving) : tick * serving :=
  (TData (List.concat (due_now (sv_owes r))),
   {| sv_heard := sv_heard r; sv_greeted := sv_greeted r; sv_owes := closer (sv_owes r) |}).

(** How long it takes until all of that was read, in attempts. *)
Definition attempts_for (l : list (nat * raw)) : nat := list_sum (map (fun q => S (fst q)) l).

(** What it says of its own accord. *)
Definition opening (v : server) : list (nat * raw) := sd_hello v ++ sd_interested v ++ sd_extended v.

(** A server that lets the client begin: it unchokes the client and states the size of the metadata within ten attempts, it says nothing
    that cannot be understood and nothing else about the size, and it never takes more than nine attempts to answer. Its handshake comes
    in one segment; of other messages the first five bytes come together, and the rest within 42 reads or peeks. *)
Definition gentle (l : list (nat * nat)) : Prop :=
  match l with [] => True | (n, _) :: _ => (5 <= n)%nat end /\ (list_sum (map (fun c => S (snd c)) l) <= 42)%nat.
Record welcoming (size : N -> hmap N -> Prop) (v : server) : Prop := {
  we_pid : List.length (sd_pid v) = 20%nat;
  we_soon : (attempts_for (opening v) <= 10)%nat;
  we_unchokes : exists q body, In (q, (1%N, body)) (opening v);
  we_states : exists q r m n e, In (q, r) (opening v) /\ parsed r m /\ states_size m = Some (n, e);
  we_behaves : forall q r, In (q, r) (opening v) -> well_behaved size r /\ short_body (snd r);
  we_answers : forall r, (sd_delay v r <= 9)%nat;
  we_cuts : forall r, gentle (sd_cuts v r)
}.

(** None of the messages that it sends of its own accord is a block of a piece; none is a block of metadata. *)
Definition no_blocks (v : server) : Prop := forall q id body, In (q, (id, body)) (opening v) -> id <> 6%N /\ id <> 7%N.
Definition no_metadata (v : server) : Prop := forall q r m e, In (q, r) (opening v) -> parsed r m -> msg_content m = CExtension e -> ex_msg_type e <> Some 1%N.

(** The size [n], and [k] as the number for ut_metadata. *)
Definition under_number (n k n' : N) (e : hmap N) : Prop := n' = n /\ hm_get e (s2b "ut_metadata") = Some k.

(** The same server behind another network. *)
Definition recut (v : server) (c : list (nat * nat)) : server :=
  {| sd_ih := sd_ih v; sd_pid := sd_pid v; sd_hello := sd_hello v; sd_interested := sd_interested v; sd_extended := sd_extended v;
     sd_piece := sd_piece v; sd_metadata := sd_metadata v; sd_number := sd_number v; sd_delay := sd_delay v; sd_cuts := fun _ => c |}.
