(** Specification side of C91. *)
From Coq Require Import List Arith NArith Bool.
Import ListNotations.
From Verif Require Import Base DiskSpec LazyState LazyModel LazySpec SetupModel StackModel StackSpec ArchiveModel CloneSpec.

(** No stripe is marked as written while its data is still in the source only.  (A write to
    a stripe that was not fetched marks it first; if the backend is stopped before the fetch,
    the mark stays.) *)
Definition nothing_half_written (l : launched) : Prop :=
  forall k h, l_lazy l = Some (k, h) -> forall st, st < nst k ->
    N.testbit (h st) 1 = true (* WRITTEN *) -> N.testbit (h st) 2 = true (* HAS_SOURCE *) -> N.testbit (h st) 0 = true (* FETCHED *).

(** [data] is what readers of the archive get, for the stripes it has; stripes of [n] sectors. *)
Definition gives (P : prims) (objects : store) (src : source) (n : nat) (data : nat -> list byte) : Prop :=
  forall st bytes, has_stripe src st = true -> fetch_stripe P objects src st (n * 512) = Ok bytes -> stripe_at data n st = bytes.
