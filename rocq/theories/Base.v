(** Base: outcomes, machine arithmetic, bytes, slices and text helpers shared by the model.
    These model Rust language / std facilities, not functions of /repo; every definition says which. *)
From Coq Require Export List NArith Arith Lia Bool.
From Coq Require Export Strings.String Strings.Ascii.
From Coq Require Export ZArith.
From Coq Require Export ZifyBool ZifyNat ZifyN.
Export ListNotations.
Open Scope list_scope.

Ltac Zify.zify_post_hook ::= Z.div_mod_to_equations.

(** ** Outcomes *)

(** What running a Rust function can do: return, panic, or (only for fuelled loops) not have
    finished within the fuel. *)
Inductive outcome (A : Type) : Type :=
| Ret (a : A)
| Panic
| OutOfFuel.
Arguments Ret {A} a.
Arguments Panic {A}.
Arguments OutOfFuel {A}.

(** Rust's [Result]. *)
Inductive result (A E : Type) : Type :=
| Ok (a : A)
| Err (e : E).
Arguments Ok {A E} a.
Arguments Err {A E} e.

Definition obind {A B} (m : outcome A) (f : A -> outcome B) : outcome B :=
  match m with
  | Ret a => f a
  | Panic => Panic
  | OutOfFuel => OutOfFuel
  end.

(** Rust's [?] on a [Result] inside a function that may also panic. *)
Definition orbind {A B E} (m : outcome (result A E)) (f : A -> outcome (result B E))
  : outcome (result B E) :=
  match m with
  | Ret (Ok a) => f a
  | Ret (Err e) => Ret (Err e)
  | Panic => Panic
  | OutOfFuel => OutOfFuel
  end.

(** Rust's [?] on a [Result] in a function that cannot panic. *)
Definition rbind {A B E} (m : result A E) (f : A -> result B E) : result B E :=
  match m with
  | Ok a => f a
  | Err e => Err e
  end.

(** Rust's [Result::ok]. *)
Definition res_ok {A E} (m : result A E) : option A :=
  match m with
  | Ok a => Some a
  | Err _ => None
  end.

Declare Scope out_scope.
Delimit Scope out_scope with out.
Notation "x <- m ;; k" := (obind m (fun x => k))
  (at level 61, m at next level, right associativity) : out_scope.
Notation "' p <- m ;; k" := (obind m (fun x => match x with p => k end))
  (at level 61, p pattern, m at next level, right associativity) : out_scope.
Notation "x <-? m ;; k" := (orbind m (fun x => k))
  (at level 61, m at next level, right associativity) : out_scope.
Notation "' p <-? m ;; k" := (orbind m (fun x => match x with p => k end))
  (at level 61, p pattern, m at next level, right associativity) : out_scope.
Open Scope out_scope.

(** ** [usize] arithmetic (64-bit target) *)

Definition two64 : N := 18446744073709551616%N.
Definition two32 : N := 4294967296%N.

(** Cargo build profile: [cargo run --release] (README) wraps on overflow, a debug build panics. *)
Inductive profile := Debug | Release.

(** [a + b] on usize. *)
Definition uadd (p : profile) (a b : N) : outcome N :=
  if (a + b <? two64)%N then Ret (a + b)%N
  else match p with Debug => Panic | Release => Ret ((a + b) mod two64)%N end.

(** [a - b] on usize. *)
Definition usub (p : profile) (a b : N) : outcome N :=
  if (b <=? a)%N then Ret (a - b)%N
  else match p with Debug => Panic | Release => Ret (a + two64 - b)%N end.

(** [a * b] on usize. *)
Definition umul (p : profile) (a b : N) : outcome N :=
  if (a * b <? two64)%N then Ret (a * b)%N
  else match p with Debug => Panic | Release => Ret ((a * b) mod two64)%N end.

(** [n as u32] truncates. *)
Definition as_u32 (n : N) : N := (n mod two32)%N.
(** [n as u8] truncates. *)
Definition as_u8 (n : N) : N := (n mod 256)%N.

(** [(0..n).step_by(k).len()]: std asserts [k != 0]; the length is the rounded-up quotient. *)
Definition step_by_len (n k : N) : outcome N :=
  if (k =? 0)%N then Panic
  else if (n =? 0)%N then Ret 0%N
  else Ret ((n - 1) / k + 1)%N.

(** ** Bytes *)

Definition bytes := list N.
Definition byte_ok (b : N) : Prop := (b < 256)%N.
Definition bytes_ok (l : bytes) : Prop := Forall byte_ok l.

Definition lenN {A} (l : list A) : N := N.of_nat (List.length l).

(** Bytes of a string literal. *)
Definition s2b (s : string) : bytes := map N_of_ascii (list_ascii_of_string s).

Fixpoint bytes_eqb (a b : bytes) : bool :=
  match a, b with
  | [], [] => true
  | x :: a', y :: b' => (x =? y)%N && bytes_eqb a' b'
  | _, _ => false
  end.

(** Rust's [Ord] on strings/byte slices is lexicographic; [bytes_leb a b] is [a <= b]. *)
Fixpoint bytes_leb (a b : bytes) : bool :=
  match a, b with
  | [], _ => true
  | _ :: _, [] => false
  | x :: a', y :: b' => (x <? y)%N || ((x =? y)%N && bytes_leb a' b')
  end.

(** [&l[a..b]]: panics unless [a <= b <= l.len()]. *)
Definition slice {A} (l : list A) (a b : nat) : outcome (list A) :=
  if (a <=? b)%nat && (b <=? List.length l)%nat
  then Ret (firstn (b - a) (skipn a l))
  else Panic.

(** [&l[a..]]: panics if [a > l.len()]. *)
Definition slice_from {A} (l : list A) (a : nat) : outcome (list A) :=
  if (a <=? List.length l)%nat then Ret (skipn a l) else Panic.

(** [l[i]]: panics if out of bounds. *)
Definition index {A} (l : list A) (i : nat) : outcome A :=
  match nth_error l i with Some x => Ret x | None => Panic end.

(** [u32::to_be_bytes]. *)
Definition be32 (n : N) : bytes :=
  [ (n / 16777216) mod 256; (n / 65536) mod 256; (n / 256) mod 256; n mod 256 ]%N.

(** [u32::from_be_bytes]. *)
Definition from_be (l : bytes) : N := fold_left (fun acc b => (acc * 256 + b)%N) l 0%N.

(** [slice::chunks_exact(k)] (the remainder is not yielded). *)
Fixpoint chunks_exact_f {A} (fuel k : nat) (l : list A) : list (list A) :=
  match fuel with
  | O => []
  | S f => if (List.length l <? k)%nat then []
           else firstn k l :: chunks_exact_f f k (skipn k l)
  end.
Definition chunks_exact {A} (k : nat) (l : list A) : list (list A) :=
  chunks_exact_f (S (List.length l)) k l.

(** ** Decimal text *)

Definition is_digit (b : N) : bool := (48 <=? b)%N && (b <=? 57)%N.

Fixpoint dec_f (fuel : nat) (n : N) (acc : bytes) : bytes :=
  match fuel with
  | O => acc
  | S f => let acc' := (48 + n mod 10)%N :: acc in
           if (n <? 10)%N then acc' else dec_f f (n / 10)%N acc'
  end.
(** [format!("{}", n)] / [n.to_string()] for unsigned integers. *)
Definition dec (n : N) : bytes := dec_f (S (N.size_nat n)) n [].

(** Value of a string of ASCII digits. *)
Definition digits_value (l : bytes) : N := fold_left (fun acc b => (acc * 10 + (b - 48))%N) l 0%N.

(** [str::parse::<usize>] on a string consisting of ASCII digits only:
    the empty string and values that do not fit are errors. *)
Definition parse_usize (l : bytes) : option N :=
  match l with
  | [] => None
  | _ => let v := digits_value l in if (v <? two64)%N then Some v else None
  end.

(** ** [HashMap<String, V>] as an association list with pairwise distinct keys.
    The order of the list stands for the (unspecified) iteration order. *)

Definition hmap (V : Type) := list (bytes * V).

(** [HashMap::insert]. *)
Fixpoint hm_insert {V} (m : hmap V) (k : bytes) (v : V) : hmap V :=
  match m with
  | [] => [(k, v)]
  | (k', v') :: t => if bytes_eqb k k' then (k', v) :: t else (k', v') :: hm_insert t k v
  end.

(** [HashMap::get]. *)
Fixpoint hm_get {V} (m : hmap V) (k : bytes) : option V :=
  match m with
  | [] => None
  | (k', v') :: t => if bytes_eqb k k' then Some v' else hm_get t k
  end.
