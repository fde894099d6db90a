(** Specification of write-through operation (tuning.write_through). *)
From Coq Require Import List Arith NArith Bool.
Import ListNotations.
From Verif Require Import Base DiskSpec TraceSpec LazyState LazyModel LazySpec.

(** [l]: the values of a sector that may be found after a power failure, newest first;
    [done]: the writes that completed successfully.  Survivor [i] is not older than the
    newest value stored by such a write. *)
Definition kept {A} (done : nat -> bool) (l : list (nat * A)) (i : nat) : Prop :=
  crashed l i = crashed (trim done l) i.

(** The base device is write-through (O_SYNC): whenever the power fails, no sector falls
    back behind a write that has completed.  (Nothing is said about the metadata device.) *)
Definition base_write_through {V} (c : cfg V) (base : nat -> V) (h : nat -> N) (es : list (event V)) : Prop :=
  forall es1 pickb pickm es2, es = es1 ++ ECrash pickb pickm :: es2 ->
    let s := reached c base h es1 in
    forall x, x < target c -> kept (bdone s) (bh s x) (pickb x).

(** Like [reads_see_writes] of TraceSpec, for a client that never flushes: once its
    successful completion has been reported, a write survives any number of crashes. *)
Definition reads_see_completed_writes {V} (size : nat) (tr : list (titem V)) : Prop :=
  forall t0 w q id r t1 q1 id1 d1 t2 n q2 id2 off len t3 q3 id3 data t4 x i v,
    tr = t0 ++ TIssue w q id r :: t1 ++ TDone w q1 id1 true d1 :: t2 ++
         TIssue n q2 id2 (RRead off len) :: t3 ++ TDone n q3 id3 true data :: t4 ->
    covers r x v -> x < size -> off + i = x -> i < len ->
    quiet x t0 -> untouched x t1 -> untouched x t2 -> untouched x t3 ->
    ~ In TCrash t1 ->
    nth_error data i = Some (Some v).
