(** Specification side of C72: which calls a caller may make, and what it means
    for a device to be write-through.  Seen from outside, a device is compared
    with the ordinary disk of DiskSpec.v whose "sectors" are units of a sector; when
    they are single bytes, writes torn in the middle of a 512-byte sector are
    covered. *)
From Coq Require Import List Arith Bool.
Import ListNotations.
From Verif Require Import Base DiskSpec CryptModel SyncModel.

(** The request lies within the device's [nsec] sectors, and the caller's buffer
    is large enough; a sector has [per] units. *)
Definition call_in_range {V} (per nsec : nat) (e : sevent V) : Prop :=
  match e with
  | SRead _ _ _ soff scnt buf | SWrite _ _ _ soff scnt buf =>
    soff + scnt <= nsec /\ scnt * per <= length buf
  | _ => True
  end.

(** The history in which the caller flushes right after every request that
    completed successfully.  (Requests get even serials, the added flushes the
    odd ones.) *)
Definition flush_after {V} (t : titem V) : list (titem V) :=
  match t with
  | TIssue n c id r => [TIssue (2 * n) c id r]
  | TDone n c id ok data =>
    TDone (2 * n) c id ok data ::
    (if ok then [TIssue (2 * n + 1) c id RFlush; TDone (2 * n + 1) c id true []] else [])
  | TCrash => [TCrash]
  end.

Definition flushed_after_each {V} (tr : list (titem V)) : list (titem V) := flat_map flush_after tr.

(** Requests issued on channel [q], and completions reported on it, since the
    last crash: serial and id, in order. *)
Definition forget_crash {V} (tr : list (titem V)) : list (titem V) :=
  fold_left (fun acc t => match t with TCrash => [] | _ => acc ++ [t] end) tr [].

Definition issued_on {V} (q : nat) (tr : list (titem V)) : list (nat * nat) :=
  flat_map (fun t => match t with TIssue n c id _ => if c =? q then [(n, id)] else [] | _ => [] end)
           (forget_crash tr).

Definition reported_on {V} (q : nat) (tr : list (titem V)) : list (nat * nat) :=
  flat_map (fun t => match t with TDone n c id _ _ => if c =? q then [(n, id)] else [] | _ => [] end)
           (forget_crash tr).
