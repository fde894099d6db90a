(** Shared vocabulary of the model: bytes, little-endian integers, slices
    that may panic, results.  No proofs here. *)
From Coq Require Import List NArith Bool Lia.
Import ListNotations.
Local Open Scope N_scope.

(** A byte is an [N] below 256; a byte string is a list of them. *)
Notation byte := N (only parsing).
Definition byte_ok (b : byte) : Prop := b < 256.
Definition bytes_ok (l : list byte) : Prop := Forall byte_ok l.

(** Outcome of a Rust function returning [Result<T>]: [Err] is an error value
    returned to the caller (its text is not modelled, only a tag), [Panic] is a
    Rust panic (index out of bounds, failed assertion, arithmetic overflow). *)
Inductive res (A : Type) : Type :=
| Ok (a : A)
| Err (tag : N)
| Panic.
Arguments Ok {A} a.
Arguments Err {A} tag.
Arguments Panic {A}.

Definition is_ok {A} (r : res A) : bool := match r with Ok _ => true | _ => false end.
Definition is_err {A} (r : res A) : bool := match r with Err _ => true | _ => false end.
Definition is_panic {A} (r : res A) : bool := match r with Panic => true | _ => false end.

Definition bindr {A B} (r : res A) (f : A -> res B) : res B :=
  match r with Ok a => f a | Err t => Err t | Panic => Panic end.
Notation "'let!' x ':=' e 'in' k" := (bindr e (fun x => k))
  (at level 200, x pattern, e at level 100, k at level 200, right associativity).

(** Rust [&buf[a..b]]: panics unless [a <= b <= buf.len()]. *)
Definition slice {A} (l : list A) (a b : nat) : res (list A) :=
  if (Nat.leb a b && Nat.leb b (length l))%bool
  then Ok (firstn (b - a) (skipn a l)) else Panic.

(** Rust [buf[i]]: panics when out of bounds. *)
Definition index {A} (l : list A) (i : nat) : res A :=
  match nth_error l i with Some x => Ok x | None => Panic end.

(** [xs[i..i+len] .copy_from_slice(ys)] on a buffer long enough. *)
Definition splice {A} (l : list A) (at_ : nat) (new : list A) : list A :=
  firstn at_ l ++ new ++ skipn (at_ + length new) l.

(** Rust [uN::to_le_bytes] for an [n]-byte integer. *)
Fixpoint le_bytes (n : nat) (x : N) : list byte :=
  match n with
  | O => []
  | S n' => (x mod 256) :: le_bytes n' (x / 256)
  end.

(** Rust [uN::from_le_bytes]. *)
Fixpoint le_val (l : list byte) : N :=
  match l with
  | [] => 0
  | b :: l' => b + 256 * le_val l'
  end.

(** Pointwise list equality test for byte strings ([==] on slices). *)
Fixpoint bytes_eqb (a b : list byte) : bool :=
  match a, b with
  | [], [] => true
  | x :: a', y :: b' => (x =? y) && bytes_eqb a' b'
  | _, _ => false
  end.

(** Replace element [i] of a list ([v[i] = x]); no effect when out of range. *)
Fixpoint set_nth {A} (i : nat) (x : A) (l : list A) : list A :=
  match l, i with
  | [], _ => []
  | _ :: l', O => x :: l'
  | y :: l', S i' => y :: set_nth i' x l'
  end.

(** Finite-map update on total functions keyed by [nat]. *)
Definition upd {A} (f : nat -> A) (k : nat) (v : A) : nat -> A :=
  fun x => if Nat.eqb x k then v else f x.
