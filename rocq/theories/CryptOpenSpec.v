(** Specification side of C82: the part of the contract of IoChannel
    (block_device/mod.rs:16-34) that is about buffers, for callers of the encrypting
    device of CryptOpenModel.v.  The part about ids is [respects] of LayerSpec.v. *)
From Coq Require Import List Arith Bool.
Import ListNotations.
From Verif Require Import Base DiskSpec CryptModel CryptOpenModel.

Section Spec.
Context {V : Type}.
Variable enc dec : nat -> V -> V.

Definition buffer_in (w : kwhat) : option nat :=
  match w with KoRead _ _ b | KoWrite b => Some b | KoFlush => None end.

(** No request in flight uses the buffer. *)
Definition free_buffer (s : kdev V) (b : nat) : Prop :=
  forall n o, k_ops s n = Some o -> buffer_in (ko_what o) <> Some b.

(** The caller touches only buffers that are free, and gives buffers large enough. *)
Definition buffers_ok (s : kdev V) (e : kevent V) : Prop :=
  match e with
  | KFill b _ => free_buffer s b
  | KRead _ _ _ _ cnt b | KWrite _ _ _ _ cnt b => free_buffer s b /\ cnt <= length (k_mem s b)
  | _ => True
  end.

Fixpoint all_buffers_ok (s : kdev V) (es : list (kevent V)) : Prop :=
  match es with
  | [] => True
  | e :: r => buffers_ok s e /\
      match kstep enc dec s e with Some (s1, _, _) => all_buffers_ok s1 r | None => True end
  end.

End Spec.
