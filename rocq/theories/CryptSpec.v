(** Specification vocabulary for the encrypted device and for tweaks. *)
From Coq Require Import List Arith NArith.
Import ListNotations.
From Verif Require Import Base DiskSpec.

(** Decryption undoes encryption with the same tweak, and both keep the length
    of a sector. *)
Definition tweakable_cipher (enc dec : list byte -> list byte -> list byte) : Prop :=
  (forall t v, length v = 512 -> dec t (enc t v) = v) /\
  (forall t v, length v = 512 -> length (enc t v) = 512) /\
  (forall t v, length v = 512 -> length (dec t v) = 512).

(** [sector_of buf i]: bytes [512 i, 512 (i+1)) of a buffer. *)
Definition sector_of (buf : list byte) (i : nat) : list byte := firstn 512 (skipn (512 * i) buf).
