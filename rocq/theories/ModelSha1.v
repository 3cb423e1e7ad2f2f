(** ModelSha1: the hash function of crate sha1 (FIPS 180-4, section 6.1), which
    src/torrent/info.rs calls in lines 100 and 126. The theorems hold for every hash function; this one serves for
    concrete runs, so that the examples and counterexamples are about the real program. *)
From Verif Require Import Base.

Definition w32 (n : N) : N := (n mod 4294967296)%N.
Definition rotl (k n : N) : N := N.lor (w32 (N.shiftl n k)) (N.shiftr n (32 - k)).
Definition not32 (n : N) : N := N.lxor n 4294967295.

(** 5.1.1: padding. *)
Fixpoint be_bytes (k : nat) (n : N) : bytes :=
  match k with
  | O => []
  | S k' => be_bytes k' (n / 256)%N ++ [(n mod 256)%N]
  end.
Definition pad_zeros (len : N) : nat := N.to_nat ((119 - len mod 64) mod 64)%N.
Definition pad (m : bytes) : bytes :=
  m ++ [128%N] ++ repeat 0%N (pad_zeros (lenN m)) ++ be_bytes 8 (8 * lenN m)%N.

(** 5.2.1: words of a block. *)
Fixpoint words (l : bytes) : list N :=
  match l with
  | a :: b :: c :: d :: t => (((a * 256 + b) * 256 + c) * 256 + d)%N :: words t
  | _ => []
  end.

(** 6.1.2: the message schedule; [acc] holds the words so far, newest first. *)
Fixpoint schedule (n : nat) (acc : list N) : list N :=
  match n with
  | O => rev acc
  | S n' =>
    let x := N.lxor (N.lxor (nth 2 acc 0%N) (nth 7 acc 0%N)) (N.lxor (nth 13 acc 0%N) (nth 15 acc 0%N)) in
    schedule n' (rotl 1 x :: acc)
  end.

Record hash_state := { h0 : N; h1 : N; h2 : N; h3 : N; h4 : N }.
Definition initial_hash : hash_state :=
  {| h0 := 1732584193; h1 := 4023233417; h2 := 2562383102; h3 := 271733878; h4 := 3285377520 |}.

(** 4.1.1 and 4.2.1: function and constant of round [t]. *)
Definition round_f (t : nat) (x y z : N) : N :=
  if (t <? 20)%nat then N.lor (N.land x y) (N.land (not32 x) z)
  else if (t <? 40)%nat then N.lxor x (N.lxor y z)
  else if (t <? 60)%nat then N.lor (N.land x y) (N.lor (N.land x z) (N.land y z))
  else N.lxor x (N.lxor y z).
Definition round_k (t : nat) : N :=
  if (t <? 20)%nat then 1518500249
  else if (t <? 40)%nat then 1859775393
  else if (t <? 60)%nat then 2400959708
  else 3395469782.

Fixpoint rounds (t : nat) (w : list N) (s : hash_state) : hash_state :=
  match w with
  | [] => s
  | x :: w' =>
    let tmp := w32 (rotl 5 (h0 s) + round_f t (h1 s) (h2 s) (h3 s) + h4 s + round_k t + x) in
    rounds (S t) w' {| h0 := tmp; h1 := h0 s; h2 := rotl 30 (h1 s); h3 := h2 s; h4 := h3 s |}
  end.
Definition block (s : hash_state) (b : bytes) : hash_state :=
  let r := rounds 0 (schedule 64 (rev (words b))) s in
  {| h0 := w32 (h0 s + h0 r); h1 := w32 (h1 s + h1 r); h2 := w32 (h2 s + h2 r); h3 := w32 (h3 s + h3 r);
     h4 := w32 (h4 s + h4 r) |}.

Definition sha1 (m : bytes) : bytes :=
  let s := fold_left block (chunks_exact 64 (pad m)) initial_hash in
  be_bytes 4 (h0 s) ++ be_bytes 4 (h1 s) ++ be_bytes 4 (h2 s) ++ be_bytes 4 (h3 s) ++ be_bytes 4 (h4 s).
