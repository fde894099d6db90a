(** What an encoded or decoded image is, independently of how the tool works. *)
From Coq Require Import List Arith NArith.
Import ListNotations.
From Verif Require Import Base CryptSpec.

(** The XTS tweak of a sector: sixteen bytes, the sector number as a
    little-endian 64-bit number in the upper half. *)
Definition sector_tweak (x : nat) : list byte := repeat 0%N 8 ++ le_bytes 8 (N.of_nat x).

(** Sectors [at_, at_ + count) of [out] are sectors [from, from + count) of
    [src], each put through [f] with the tweak of its number in [src]. *)
Definition transformed (f : list byte -> list byte -> list byte) (src : list byte) (from count : nat)
    (out : list byte) (at_ : nat) : Prop :=
  forall i, i < count -> sector_of out (at_ + i) = f (sector_tweak (from + i)) (sector_of src (from + i)).

(** The sectors a user asks for with [--start] and [--len], when the input has
    [total] sectors: the start must lie in the image and the length, if given,
    must not reach past its end. *)
Definition asked (total : nat) (start len : option nat) (from count : nat) : Prop :=
  from = match start with Some s => s | None => 0 end /\
  count = match len with Some l => l | None => total - from end /\
  from < total /\ from + count <= total.
