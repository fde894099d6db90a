(** Specification side of C81: what the callers of the io_uring device owe it (the
    contract of IoChannel, block_device/mod.rs:16-34, and the comment at
    bdev_uring.rs:65-72), and what is asked of the kernel. *)
From Coq Require Import List Arith NArith Bool.
Import ListNotations.
From Verif Require Import Base DiskSpec SyncModel UringDiskModel.

Section Spec.
Context {V : Type}.
Variable us : N.
Variable per : nat.
Variable readonly osync : bool.
Variable entries : nat.
Variable nsec : nat.   (* sectors of the device *)

(** No request that has not been reported uses the buffer. *)
Definition buffer_of (w : what) : option nat :=
  match w with WRead _ _ b | WWrite _ _ b => Some b | WSync => None end.
Definition unused (s : fdev V) (b : nat) : Prop :=
  forall n o, f_op s n = Some o -> buffer_of (f_what o) <> Some b.

(** The caller touches only buffers that are not in use, its requests lie inside the
    device and are of less than 4 GiB, and their buffers are large enough. *)
Definition caller_ok (s : fdev V) (e : fevent V) : Prop :=
  match e with
  | FFill b _ => unused s b
  | FRead _ _ _ soff cnt b | FWrite _ _ _ soff cnt b =>
    unused s b /\ soff + cnt <= nsec /\ (N.of_nat cnt < 2 ^ 23)%N /\ cnt * per <= length (f_mem s b)
  | _ => True
  end.

Fixpoint calls_ok (s : fdev V) (es : list (fevent V)) : Prop :=
  match es with
  | [] => True
  | e :: r => caller_ok s e /\
      match fstep us per readonly osync entries s e with Some (s1, _) => calls_ok s1 r | None => True end
  end.

(** The kernel transfers all that was asked for, or reports an error. *)
Definition no_short_transfers (es : list (fevent V)) : Prop :=
  forall n k, ~ In (FComplete n (Short k)) es.

End Spec.
