(** Model of the per-queue I/O tracker (src/backends/common/io_tracking.rs). *)
From Coq Require Import List NArith Arith Bool.
From Verif Require Import Base.
Import ListNotations.
Local Open Scope N_scope.

(** io_tracking.rs:10 EXTRA_TRACKING_SLOTS. *)
Definition EXTRA_TRACKING_SLOTS : nat := 8.

(** io_tracking.rs:18-22 IoRecord (the atomics' current values). *)
Record rec := mk_rec { r_kind : N; r_off : N; r_len : N }.

(** io_tracking.rs:25-32 IoTracker. *)
Record tracker := mk_tracker {
  t_ios : list rec; t_bytes_read : N; t_bytes_written : N;
  t_read_ops : N; t_write_ops : N; t_flush_ops : N }.

(** io_tracking.rs:35-58 IoTracker::new. *)
Definition tracker_new (size : nat) : tracker :=
  mk_tracker (repeat (mk_rec 0 0 0) (size + EXTRA_TRACKING_SLOTS)) 0 0 0 0 0.

(** AtomicU64::fetch_add wraps around. *)
Definition fetch_add (a b : N) : N := (a + b) mod 2 ^ 64.

(** The three stores of io_tracking.rs:76-83 and 102-109; a slot beyond the table is
    only logged (69-75). The warning about a used slot (127-133) has no effect. *)
Definition put_rec (slot : nat) (r : rec) (l : list rec) : list rec :=
  if (length l <=? slot)%nat then l else set_nth slot r l.

(** io_tracking.rs:60-84 add_read: [length_sectors * 512] is a u64 product of a
    value that comes from a u32 (request lengths), so it does not overflow. *)
Definition t_add_read (slot : nat) (off len : N) (t : tracker) : tracker :=
  mk_tracker (put_rec slot (mk_rec 1 off len) (t_ios t))
    (fetch_add (t_bytes_read t) (len * 512)) (t_bytes_written t)
    (fetch_add (t_read_ops t) 1) (t_write_ops t) (t_flush_ops t).

(** io_tracking.rs:86-110 add_write. *)
Definition t_add_write (slot : nat) (off len : N) (t : tracker) : tracker :=
  mk_tracker (put_rec slot (mk_rec 2 off len) (t_ios t))
    (t_bytes_read t) (fetch_add (t_bytes_written t) (len * 512))
    (t_read_ops t) (fetch_add (t_write_ops t) 1) (t_flush_ops t).

(** Only the kind is stored for a flush and on clearing (io_tracking.rs:112-125, 135-141). *)
Definition set_kind (slot : nat) (k : N) (l : list rec) : list rec :=
  match nth_error l slot with
  | Some r => set_nth slot (mk_rec k (r_off r) (r_len r)) l
  | None => l
  end.

(** io_tracking.rs:112-125 add_flush. *)
Definition t_add_flush (slot : nat) (t : tracker) : tracker :=
  mk_tracker (set_kind slot 3 (t_ios t)) (t_bytes_read t) (t_bytes_written t)
    (t_read_ops t) (t_write_ops t) (fetch_add (t_flush_ops t) 1).

(** io_tracking.rs:135-141 clear. *)
Definition t_clear (slot : nat) (t : tracker) : tracker :=
  mk_tracker (set_kind slot 0 (t_ios t)) (t_bytes_read t) (t_bytes_written t)
    (t_read_ops t) (t_write_ops t) (t_flush_ops t).

(** io_tracking.rs:12-16 IoKind. *)
Inductive io_kind := KRead | KWrite | KFlush.

(** One element of the snapshot, io_tracking.rs:147-163: nothing for kind 0, and
    unreachable!() for a kind that is never stored. *)
Definition snap_one (kind off len : N) : res (list (io_kind * N * N)) :=
  if kind =? 0 then Ok []
  else if kind =? 1 then Ok [(KRead, off, len)]
  else if kind =? 2 then Ok [(KWrite, off, len)]
  else if kind =? 3 then Ok [(KFlush, off, len)]
  else Panic.

Fixpoint snap_all (l : list rec) : res (list (io_kind * N * N)) :=
  match l with
  | [] => Ok []
  | r :: l' => let! a := snap_one (r_kind r) (r_off r) (r_len r) in
               let! b := snap_all l' in Ok (a ++ b)
  end.

(** io_tracking.rs:143-166 snapshot, taken while the queue is quiet. *)
Definition snapshot (t : tracker) : res (list (io_kind * N * N)) := snap_all (t_ios t).

(** io_tracking.rs:169-182 cumulative_stats. *)
Definition cumulative_stats (t : tracker) : N * N * N * N * N :=
  (t_bytes_read t, t_bytes_written t, t_read_ops t, t_write_ops t, t_flush_ops t).

(** The calls a queue makes. *)
Inductive tcall :=
| TRead (slot : nat) (off len : N) | TWrite (slot : nat) (off len : N)
| TFlush (slot : nat) | TClear (slot : nat).

Definition tcall_step (t : tracker) (c : tcall) : tracker :=
  match c with
  | TRead s o l => t_add_read s o l t
  | TWrite s o l => t_add_write s o l t
  | TFlush s => t_add_flush s t
  | TClear s => t_clear s t
  end.
Definition tcalls (t : tracker) (cs : list tcall) : tracker := fold_left tcall_step cs t.

(** ** Concurrent snapshots

    The RPC thread reads the records while the queue's thread updates them.  The
    stores of a call, one at a time and in program order (io_tracking.rs:78-83,
    104-109, 123-124, 140).  The interleaving is sequentially consistent (the
    release/acquire pair on the kind orders what matters here; weaker orders would
    allow more behaviours). *)
Inductive store := SOff (slot : nat) (v : N) | SLen (slot : nat) (v : N) | SKind (slot : nat) (v : N).

Definition stores_of (c : tcall) : list store :=
  match c with
  | TRead s o l => [SOff s o; SLen s l; SKind s 1]
  | TWrite s o l => [SOff s o; SLen s l; SKind s 2]
  | TFlush s => [SKind s 3]
  | TClear s => [SKind s 0]
  end.

Definition do_store (l : list rec) (st : store) : list rec :=
  match st with
  | SOff s v => match nth_error l s with Some r => set_nth s (mk_rec (r_kind r) v (r_len r)) l | None => l end
  | SLen s v => match nth_error l s with Some r => set_nth s (mk_rec (r_kind r) (r_off r) v) l | None => l end
  | SKind s v => set_kind s v l
  end.
Definition do_stores (l : list rec) (sts : list store) : list rec := fold_left do_store sts l.

(** What a concurrent snapshot reports for [slot]: the kind is loaded after [i1] of
    the stores, the offset after [i2] and the length after [i3] of them. *)
Definition racy_snap (l : list rec) (sts : list store) (i1 i2 i3 : nat) (slot : nat)
  : res (list (io_kind * N * N)) :=
  match nth_error (do_stores l (firstn i1 sts)) slot,
        nth_error (do_stores l (firstn i2 sts)) slot,
        nth_error (do_stores l (firstn i3 sts)) slot with
  | Some a, Some b, Some c => snap_one (r_kind a) (r_off b) (r_len c)
  | _, _, _ => Ok []
  end.
