(** Specification side of C83: how many requests of a channel are under way at once, and
    how many are added between two submissions, read off a history and off the calls. *)
From Coq Require Import List Arith NArith Bool.
Import ListNotations.
From Verif Require Import Base DiskSpec UringDiskModel.

Section Spec.
Context {V : Type}.

(** The requests of channel [q] that are under way (made, and not yet reported) after the
    history [tr]; a power failure ends all of them. *)
Definition note (q : nat) (l : list nat) (i : titem V) : list nat :=
  match i with
  | TIssue n q' _ _ => if q' =? q then n :: l else l
  | TDone n q' _ _ _ => if q' =? q then filter (fun m => negb (m =? n)) l else l
  | TCrash => []
  end.
Definition under_way (q : nat) (tr : list (titem V)) : list nat := fold_left (note q) tr [].

(** Never more than [k] requests of channel [q] are under way. *)
Definition at_most (k q : nat) (tr : list (titem V)) : Prop :=
  forall t1 t2, tr = t1 ++ t2 -> length (under_way q t1) <= k.

(** How many requests were added to channel [q] since it was last submitted. *)
Definition count (q k : nat) (e : fevent V) : nat :=
  match e with
  | FRead _ q' _ _ _ _ | FWrite _ q' _ _ _ _ | FFlush _ q' _ => if q' =? q then S k else k
  | FSubmit q' _ => if q' =? q then 0 else k
  | FCrash _ => 0
  | _ => k
  end.
Definition added (q : nat) (es : list (fevent V)) : nat := fold_left (count q) es 0.

(** Never more than [k] requests are added to channel [q] between two submissions. *)
Definition bursts (k q : nat) (es : list (fevent V)) : Prop :=
  forall e1 e2, es = e1 ++ e2 -> added q e1 <= k.

(** The kernel takes all that is submitted on [q] (io_uring_enter takes every entry unless
    it runs out of memory), for a ring of [entries]. *)
Definition all_taken (entries q : nat) (es : list (fevent V)) : Prop :=
  forall k, In (FSubmit q k) es -> entries <= k.

(** The kernel reports an error for request [n]. *)
Definition kernel_failed (n : nat) (es : list (fevent V)) : Prop := In (FComplete n Failed) es.

End Spec.
