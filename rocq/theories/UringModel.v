(** Model of the io_uring block device (src/block_device/bdev_uring.rs) over a
    regular file, with the kernel's side of the ring. *)
From Coq Require Import List NArith ZArith Arith Bool.
From Verif Require Import Base.
Import ListNotations.
Local Open Scope N_scope.

(** The submission queue entries built at bdev_uring.rs:78-81, 94-97 and 112-114. *)
Inductive uop :=
| URead (off len : N)
| UWrite (off len : N) (data : list byte)
| UFsync.

(** bdev_uring.rs:13-21 UringIoChannel with the ring it owns: [u_sq] entries pushed
    and not yet taken by the kernel, [u_kern] operations in the kernel, [u_cq]
    completions not yet reaped; [u_file] the file; [u_buf id] what the kernel
    stored in the buffer of request [id].  The counters are u64 in the code. *)
Record ustate := mk_ustate {
  u_file : list byte; u_sq : list (nat * uop); u_kern : list (nat * uop);
  u_cq : list (nat * Z); u_pending : nat; u_submissions : nat; u_completions : nat;
  u_finished : list (nat * bool); u_buf : nat -> list byte }.

Definition uinit (f : list byte) : ustate := mk_ustate f [] [] [] 0 0 0 [] (fun _ => []).

Section Uring.
(** Number of submission queue entries (queue_size) and the sync_io flag. *)
Variable entries : nat.
Variable sync_io : bool.

(** submission().push: refuses when the submission queue is full; bdev_uring.rs:82-87. *)
Definition push (id : nat) (o : uop) (s : ustate) : ustate :=
  if (length (u_sq s) <? entries)%nat
  then mk_ustate (u_file s) (u_sq s ++ [(id, o)]) (u_kern s) (u_cq s) (S (u_pending s))
         (u_submissions s) (u_completions s) (u_finished s) (u_buf s)
  else mk_ustate (u_file s) (u_sq s) (u_kern s) (u_cq s) (u_pending s)
         (u_submissions s) (u_completions s) (u_finished s ++ [(id, false)]) (u_buf s).

(** bdev_uring.rs:74-88 add_read: [sector_count * 512] is a u32 and
    [sector_offset * 512] a u64 product; both wrap in a release build. *)
Definition add_read (sector count : N) (id : nat) (s : ustate) : ustate :=
  push id (URead ((sector * 512) mod 2 ^ 64) ((count * 512) mod 2 ^ 32)) s.

(** bdev_uring.rs:90-104 add_write; [data] is the buffer's contents, which the
    channel's contract keeps unchanged until completion. *)
Definition add_write (sector count : N) (id : nat) (data : list byte) (s : ustate) : ustate :=
  push id (UWrite ((sector * 512) mod 2 ^ 64) ((count * 512) mod 2 ^ 32) data) s.

(** bdev_uring.rs:106-121 add_flush. *)
Definition add_flush (id : nat) (s : ustate) : ustate :=
  if sync_io
  then mk_ustate (u_file s) (u_sq s) (u_kern s) (u_cq s) (u_pending s)
         (u_submissions s) (u_completions s) (u_finished s ++ [(id, true)]) (u_buf s)
  else push id UFsync s.

(** bdev_uring.rs:123-134 submit. [taken]: how many entries the kernel takes off
    the queue (io_uring_enter may take fewer than offered, or fail and take
    none). *)
Definition submit (taken : nat) (s : ustate) : ustate :=
  if (u_pending s =? 0)%nat then s
  else mk_ustate (u_file s) (skipn taken (u_sq s)) (u_kern s ++ firstn taken (u_sq s)) (u_cq s) 0
         (u_submissions s + u_pending s) (u_completions s) (u_finished s) (u_buf s).

(** bdev_uring.rs:136-156 poll: a negative result is a failure, anything else a
    success. *)
Definition poll (s : ustate) : ustate * list (nat * bool) :=
  (mk_ustate (u_file s) (u_sq s) (u_kern s) [] (u_pending s) (u_submissions s)
     (u_completions s + length (u_cq s)) [] (u_buf s),
   u_finished s ++ map (fun '(id, r) => (id, negb (r <? 0)%Z)) (u_cq s)).

(** bdev_uring.rs:158-162 busy. *)
Definition busy (s : ustate) : bool :=
  (u_completions s <? u_submissions s)%nat ||
  negb (match u_finished s with [] => true | _ => false end) || (0 <? u_pending s)%nat.

(** ** The kernel (read(2), write(2) and fsync(2) on a regular file) *)
Definition pwrite (f : list byte) (off : nat) (d : list byte) : list byte :=
  let f' := f ++ repeat 0 (off - length f) in
  firstn off f' ++ d ++ skipn (off + length d) f'.
Definition pread (f : list byte) (off len : nat) : list byte := firstn len (skipn off f).

Definition EINVAL : Z := (-22)%Z.

(** Perform operation [o]; [err] is an I/O error.  Offsets of 2^63 and more are
    negative file offsets. *)
Definition perform (o : uop) (err : option Z) (f : list byte) (b : list byte)
  : list byte * list byte * Z :=
  match err with
  | Some e => (f, b, e)
  | None =>
    match o with
    | URead off len =>
      if 2 ^ 63 <=? off then (f, b, EINVAL)
      else let d := pread f (N.to_nat off) (N.to_nat len) in (f, d, Z.of_nat (length d))
    | UWrite off len data =>
      if 2 ^ 63 <=? off then (f, b, EINVAL)
      else let d := firstn (N.to_nat len) data in
           ((if match d with [] => true | _ => false end then f else pwrite f (N.to_nat off) d), b,
            Z.of_nat (length d))
    | UFsync => (f, b, 0%Z)
    end
  end.

(** The [i]-th operation in the kernel completes. *)
Definition kernel_complete (i : nat) (err : option Z) (s : ustate) : ustate :=
  match nth_error (u_kern s) i with
  | None => s
  | Some (id, o) =>
    let '(f, b, r) := perform o err (u_file s) (u_buf s id) in
    mk_ustate f (u_sq s) (firstn i (u_kern s) ++ skipn (S i) (u_kern s)) (u_cq s ++ [(id, r)])
      (u_pending s) (u_submissions s) (u_completions s) (u_finished s) (upd (u_buf s) id b)
  end.

Inductive uevent :=
| UAddRead (sector count : N) (id : nat)
| UAddWrite (sector count : N) (id : nat) (data : list byte)
| UAddFlush (id : nat)
| USubmit (taken : nat)
| UKernel (i : nat) (err : option Z)
| UPoll.

(** One step and the completions reported to the caller. *)
Definition ustep (s : ustate) (e : uevent) : ustate * list (nat * bool) :=
  match e with
  | UAddRead sec cnt id => (add_read sec cnt id s, [])
  | UAddWrite sec cnt id d => (add_write sec cnt id d s, [])
  | UAddFlush id => (add_flush id s, [])
  | USubmit k => (submit k s, [])
  | UKernel i err => (kernel_complete i err s, [])
  | UPoll => poll s
  end.

Fixpoint urun (s : ustate) (es : list uevent) : ustate * list (nat * bool) :=
  match es with
  | [] => (s, [])
  | e :: r => let '(s1, o1) := ustep s e in let '(s2, o2) := urun s1 r in (s2, o1 ++ o2)
  end.
End Uring.

(** bdev_uring.rs:203-243 UringBlockDevice::new: the capacity is the size of the
    file, which must be a whole number of sectors. *)
Definition uring_open (queue_size : N) (f : list byte) : res N :=
  if negb ((0 <? queue_size) && (N.land queue_size (queue_size - 1) =? 0)) then Err 1
  else if negb (N.of_nat (length f) mod 512 =? 0) then Err 2
  else Ok (N.of_nat (length f) / 512).
