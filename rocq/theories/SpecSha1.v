(** SpecSha1: the secure hash standard (FIPS 180-4) for messages of whole bytes, in the notation of the
    standard: words as functions of their bits, the schedule and the working variables as sequences
    indexed by t, constants by their origin. Written for reading, not for running. *)
From Verif Require Import Base SpecMessages SpecTorrent.

(** The 32-bit word with the given bits. *)
Fixpoint from_bits (n : nat) (g : nat -> bool) : N :=
  match n with
  | O => 0%N
  | S n' => (N.b2n (g 0%nat) + 2 * from_bits n' (fun k => g (S k)))%N
  end.
Definition word_bits (g : nat -> bool) : N := from_bits 32 g.
Definition bit_of (x : N) (k : nat) : bool := N.testbit x (N.of_nat k).

(** 2.2.2: addition modulo 2^32 and rotation to the left. *)
Definition add32 (x y : N) : N := ((x + y) mod 2 ^ 32)%N.
Definition ROTL (n x : N) : N := ((x * 2 ^ n) mod 2 ^ 32 + x / 2 ^ (32 - n))%N.

(** 4.1.1: f_t. *)
Definition Ch (x y z : N) : N := word_bits (fun k => if bit_of x k then bit_of y k else bit_of z k).
Definition Parity (x y z : N) : N := word_bits (fun k => xorb (bit_of x k) (xorb (bit_of y k) (bit_of z k))).
Definition Maj (x y z : N) : N :=
  word_bits (fun k => if bit_of x k then bit_of y k || bit_of z k else bit_of y k && bit_of z k).
Definition f_t (t : nat) : N -> N -> N -> N :=
  match (t / 20)%nat with 0%nat => Ch | 1%nat => Parity | 2%nat => Maj | _ => Parity end.
(** 4.2.1: K_t, the first 32 bits of the square roots of 2, 3, 5 and 10 (over 4). *)
Definition K_t (t : nat) : N :=
  N.sqrt (match (t / 20)%nat with 0%nat => 2 | 1%nat => 3 | 2%nat => 5 | _ => 10 end * 2 ^ 60)%N.

(** 6.1.2, step 1: the schedule of block M, a sequence of bytes. *)
Definition M_t (M : bytes) (t : nat) : N := big_endian_value (firstn 4 (skipn (4 * t) M)).
Fixpoint W_f (fuel : nat) (M : bytes) (t : nat) : N :=
  match fuel with
  | O => 0%N
  | S f =>
    if (t <? 16)%nat then M_t M t
    else ROTL 1 (Parity (N.lxor (W_f f M (t - 3)) (W_f f M (t - 8))) (W_f f M (t - 14)) (W_f f M (t - 16)))
  end.
Definition W_t (M : bytes) (t : nat) : N := W_f (S t) M t.

(** Steps 2 and 3: the working variables after t rounds. *)
Record vars := { va : N; vb : N; vc : N; vd : N; ve : N }.
Fixpoint working (M : bytes) (H : vars) (t : nat) : vars :=
  match t with
  | O => H
  | S t' =>
    let v := working M H t' in
    {| va := add32 (add32 (add32 (add32 (ROTL 5 (va v)) (f_t t' (vb v) (vc v) (vd v))) (ve v)) (K_t t')) (W_t M t');
       vb := va v; vc := ROTL 30 (vb v); vd := vc v; ve := vd v |}
  end.
(** Step 4: the next hash value. *)
Definition next_hash (M : bytes) (H : vars) : vars :=
  let v := working M H 80 in
  {| va := add32 (va v) (va H); vb := add32 (vb v) (vb H); vc := add32 (vc v) (vc H); vd := add32 (vd v) (vd H);
     ve := add32 (ve v) (ve H) |}.

(** 5.3.1: the initial hash value. *)
Definition initial_text : bytes := s2b "67452301efcdab8998badcfe10325476c3d2e1f0".
Definition initial_word (k : nat) : N :=
  match unhex (firstn 8 (skipn (8 * k) initial_text)) with Some b => big_endian_value b | None => 0%N end.
Definition H_0 : vars :=
  {| va := initial_word 0; vb := initial_word 1; vc := initial_word 2; vd := initial_word 3; ve := initial_word 4 |}.

(** The hash value after [n] blocks of the padded message. *)
Fixpoint H_n (padded : bytes) (n : nat) : vars :=
  match n with
  | O => H_0
  | S n' => next_hash (firstn 64 (skipn (64 * n') padded)) (H_n padded n')
  end.

(** 5.1.1: a one bit, [z] zero bytes after the byte that holds it, the length in bits. *)
Definition padding (m : bytes) (z : nat) : bytes := [128%N] ++ repeat 0%N z ++ big_endian 8 (8 * lenN m).
Definition digest_of (v : vars) : bytes :=
  big_endian 4 (va v) ++ big_endian 4 (vb v) ++ big_endian 4 (vc v) ++ big_endian 4 (vd v) ++ big_endian 4 (ve v).

(** [d] is the SHA-1 digest of [m]: [z] is the smallest number of zeros that fills a block, and [n]
    the number of blocks. *)
Definition is_digest (m d : bytes) : Prop :=
  exists z n, ((List.length m + 1 + z) mod 64 = 56)%nat /\ (z < 64)%nat /\
    List.length (m ++ padding m z) = (64 * n)%nat /\ d = digest_of (H_n (m ++ padding m z) n).
