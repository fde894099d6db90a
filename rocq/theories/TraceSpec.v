(** Specification: what can be said about an observable history of a disk
    without looking at the disk itself.  A history is a list of items (see
    DiskSpec.v): requests issued, completions reported, crashes. *)
From Coq Require Import List Arith Bool.
Import ListNotations.
From Verif Require Import DiskSpec.

Section Trace.
Context {V : Type}.

(** [covers r x v]: request [r] is a write that stores [v] in sector [x]. *)
Definition covers (r : req V) (x : nat) (v : V) : Prop :=
  match r with
  | RWrite off data => exists j, off + j = x /\ nth_error data j = Some v
  | _ => False
  end.

(** Every completion is that of a request issued earlier on the same queue under
    the same id, with no crash and no other completion of it in between; and no two
    requests are confused (a serial is issued only once). *)
Definition completions_match (tr : list (titem V)) : Prop :=
  (forall t1 n q id ok data t2, tr = t1 ++ TDone n q id ok data :: t2 ->
     exists t0 r t3, t1 = t0 ++ TIssue n q id r :: t3 /\ ~ In TCrash t3 /\
       forall q' id' ok' data', ~ In (TDone n q' id' ok' data') t3) /\
  (forall t1 n q id r t2, tr = t1 ++ TIssue n q id r :: t2 ->
     forall q' id' r', ~ In (TIssue n q' id' r') t1).

(** Every successful read returns, sector by sector, initial contents or data of a
    write issued earlier to that very sector; the returned data has the requested
    length, and only sectors beyond the end of the disk are missing. *)
Definition reads_return_written (size : nat) (contents : nat -> V) (tr : list (titem V)) : Prop :=
  forall t1 n q id data t2 off len,
    tr = t1 ++ TDone n q id true data :: t2 -> In (TIssue n q id (RRead off len)) t1 ->
    length data = len /\
    (forall i, nth_error data i = Some None -> size <= off + i) /\
    (forall i v, nth_error data i = Some (Some v) ->
       v = contents (off + i) \/
       exists m q' id' r, In (TIssue m q' id' r) t1 /\ covers r (off + i) v).

(** Request [n] is over at the end of history [t]: completed or lost in a crash. *)
Definition over (n : nat) (t : list (titem V)) : Prop :=
  exists t1 t2 q id r, t = t1 ++ TIssue n q id r :: t2 /\
    (In TCrash t2 \/ exists q' id' ok data, In (TDone n q' id' ok data) t2).

(** No write to sector [x] is outstanding at the end of history [t]. *)
Definition quiet (x : nat) (t : list (titem V)) : Prop :=
  forall n q id r v, In (TIssue n q id r) t -> covers r x v -> over n t.

(** No write to sector [x] is issued in [t]. *)
Definition untouched (x : nat) (t : list (titem V)) : Prop :=
  forall n q id r v, In (TIssue n q id r) t -> ~ covers r x v.

(** [t] contains a flush that was issued and completed successfully, before any crash. *)
Definition flushed (t : list (titem V)) : Prop :=
  exists t1 n q id t2 q' id' data t3,
    t = t1 ++ TIssue n q id RFlush :: t2 ++ TDone n q' id' true data :: t3 /\
    ~ In TCrash t1 /\ ~ In TCrash t2.

(** Read after write.  Write [w] stored [v] in sector [x]: no other write to [x] was
    outstanding when it was issued and none was issued since.  After its
    successful completion a read issued later and completed successfully returns
    [v] for sector [x], provided that either no crash happened since the write was
    issued or a flush issued after the completion of the write completed
    successfully before the first crash. *)
Definition reads_see_writes (size : nat) (tr : list (titem V)) : Prop :=
  forall t0 w q id r t1 q1 id1 d1 t2 n q2 id2 off len t3 q3 id3 data t4 x i v,
    tr = t0 ++ TIssue w q id r :: t1 ++ TDone w q1 id1 true d1 :: t2 ++
         TIssue n q2 id2 (RRead off len) :: t3 ++ TDone n q3 id3 true data :: t4 ->
    covers r x v -> x < size -> off + i = x -> i < len ->
    quiet x t0 -> untouched x t1 -> untouched x t2 -> untouched x t3 ->
    ~ In TCrash t1 -> (~ In TCrash t2 \/ flushed t2) ->
    nth_error data i = Some (Some v).

End Trace.
