(** Model of the io_uring block device over a file: src/block_device/bdev_uring.rs,
    with all channels of a device, the shared buffers, the kernel and the file.

    UringModel.v (C51, C49) has one channel with its counters and a kernel that serves
    each request at once.  Here the kernel works on many requests at the same time,
    piece by piece, straight from and into the buffers the channel gave it pointers
    to, and the file remembers what may be left of it after a power failure (as in
    SyncModel.v).  The counters (pending, submissions, completions) decide nothing
    here and are left out.

    The file is an array of units of [us] bytes, [per] of them in a sector of 512
    bytes.  A unit is what a write, a read or a power failure does not tear: with
    [us = 1] a byte, with [us = 512] a sector. *)
From Coq Require Import List Arith NArith Bool.
Import ListNotations.
From Verif Require Import Base DiskSpec SyncModel.

(** bdev_uring.rs:203-243 [UringBlockDevice::new], for a file of [len] bytes: the
    number of sectors. *)
Definition open_uring (queue_size len : N) : res N :=
  if negb ((0 <? queue_size)%N && (N.land queue_size (queue_size - 1) =? 0)%N) then Err 1%N
  else if negb (len mod 512 =? 0)%N then Err 2%N
  else Ok (len / 512)%N.

(** bdev_uring.rs:79, 95: [sector_offset * SECTOR_SIZE as u64], and 77, 93:
    [sector_count * SECTOR_SIZE as u32], products that wrap in release builds. *)
Definition byte_offset (soff : nat) : N := ((N.of_nat soff * 512) mod 2 ^ 64)%N.
Definition byte_length (cnt : nat) : N := ((N.of_nat cnt * 512) mod 2 ^ 32)%N.

(** What a submission queue entry asks of the kernel (io_uring::opcode::Read, Write,
    Fsync), with offset and length in units; [b] is the buffer pointed to. *)
Inductive what := WRead (off len b : nat) | WWrite (off len b : nat) | WSync.

(** Where a request is: in the submission queue; with the kernel since moment
    [since], which has transferred the units [moved]; or with its result, in the
    completion queue or in [finished_requests]. *)
Inductive phase := Queued | Running (moved : nat -> bool) (since : nat) | Finished (ok : bool).

Record fop := mk_fop { f_ch : nat; f_id : nat; f_what : what; f_phase : phase }.

(** What a completion queue entry says: everything was transferred (fsync: 0), only
    the first [k] units were (a positive result, but less than asked), or an error
    (a negative result). *)
Inductive outcome := Full | Short (k : nat) | Failed.

Section Device.
Context {V : Type}.
Variable us : N.
Variable per : nat.
Variable readonly : bool.  (* bdev_uring.rs:32 *)
Variable osync : bool.     (* bdev_uring.rs:37-39, 60: O_SYNC, and [sync_io] *)
Variable entries : nat.    (* bdev_uring.rs:46-52: slots of the submission queue *)

(** All channels of one device (bdev_uring.rs:13-21): [f_sq q], [f_cq q] are the two
    queues of the ring of channel [q], [f_fin q] is its [finished_requests].  A
    request is known by its serial number, which is not in the program; [f_op] has
    what the queues hold under it, until it is reported. *)
Record fdev := mk_fdev {
  f_op : nat -> option fop;
  f_used : nat -> bool;            (* serials used so far *)
  f_sq : nat -> list nat;
  f_fin : nat -> list nat;
  f_cq : nat -> list nat;
  f_mem : nat -> list V;           (* the shared buffers *)
  f_cell : nat -> list (cell V);   (* the units of the file *)
  f_len : nat;                     (* its length *)
  f_now : nat                      (* advances with every step *)
}.

Definition new_fdev (len : nat) (contents : nat -> V) : fdev :=
  mk_fdev (fun _ => None) (fun n => n =? 0) (fun _ => []) (fun _ => []) (fun _ => []) (fun _ => [])
          (fun x => [mk_cell 0 0 (contents x)]) len 1.

Inductive fevent :=
| FFill (b : nat) (data : list V)      (* the caller uses a buffer *)
| FRead (n q id soff cnt b : nat)      (* add_read *)
| FWrite (n q id soff cnt b : nat)     (* add_write *)
| FFlush (n q id : nat)                (* add_flush *)
| FSubmit (q k : nat)                  (* submit; the kernel takes [k] entries *)
| FMove (n i : nat)                    (* the kernel transfers unit [i] of request [n] *)
| FComplete (n : nat) (r : outcome)    (* the kernel is done with request [n] *)
| FPoll (q : nat)                      (* poll *)
| FCrash (survivor : nat -> nat).      (* power failure, restart *)

Definition units (bytes : N) : nat := N.to_nat (bytes / us).

(** [ring.submission().push(&entry)], or, if there is no slot, the request goes to
    [finished_requests] as failed (bdev_uring.rs:82-87, 98-103, 115-120). *)
Definition push (n q id : nat) (w : what) (s : fdev) : fdev :=
  if length (f_sq s q) <? entries
  then mk_fdev (upd (f_op s) n (Some (mk_fop q id w Queued))) (upd (f_used s) n true)
         (upd (f_sq s) q (f_sq s q ++ [n])) (f_fin s) (f_cq s) (f_mem s) (f_cell s) (f_len s) (S (f_now s))
  else mk_fdev (upd (f_op s) n (Some (mk_fop q id w (Finished false)))) (upd (f_used s) n true)
         (f_sq s) (upd (f_fin s) q (f_fin s q ++ [n])) (f_cq s) (f_mem s) (f_cell s) (f_len s) (S (f_now s)).

Definition is_in (n : nat) (l : list nat) : bool := existsb (Nat.eqb n) l.

(** The kernel starts on a request. *)
Definition started (now : nat) (o : fop) : fop := mk_fop (f_ch o) (f_id o) (f_what o) (Running (fun _ => false) now).

(** The first [k] units of a request of the kernel have been transferred. *)
Definition all_moved (moved : nat -> bool) (k : nat) : bool := forallb moved (seq 0 k).

(** What the kernel may say about a request of which it transferred [moved]. *)
Definition possible (w : what) (moved : nat -> bool) (r : outcome) : bool :=
  match r, w with
  | Full, WRead _ len _ | Full, WWrite _ len _ => all_moved moved len
  | Full, WSync => true
  | Short k, WRead _ len _ | Short k, WWrite _ len _ => (k <? len) && all_moved moved k
  | Short _, WSync => false
  | Failed, _ => true
  end.

(** bdev_uring.rs:144-149: a result that is not negative is success. *)
Definition success (r : outcome) : bool := match r with Failed => false | _ => true end.

(** What a result of the kernel means for the medium: after fsync what was in the
    file when it began is on stable storage; with O_SYNC so is what the write itself
    transferred. *)
Definition stored (n since : nat) (w : what) (r : outcome) (l : list (cell V)) : list (cell V) :=
  match w with
  | WSync => if success r then settle (fun e => ce_time e <? since) l else l
  | WWrite _ _ _ => if osync && success r then settle (fun e => ce_by e =? n) l else l
  | WRead _ _ _ => l
  end.

(** What poll reports of request [n], with the data its caller then finds in the
    buffer. *)
Definition report (s : fdev) (n : nat) : list (titem V) :=
  match f_op s n with
  | Some (mk_fop q id w (Finished ok)) =>
    [TDone n q id ok (match w with
                      | WRead _ len b => if ok then map Some (firstn len (f_mem s b)) else []
                      | _ => []
                      end)]
  | _ => []
  end.

Definition forget (n : nat) (s : fdev) : fdev :=
  mk_fdev (upd (f_op s) n None) (f_used s) (f_sq s) (f_fin s) (f_cq s) (f_mem s) (f_cell s) (f_len s) (f_now s).

Fixpoint report_all (l : list nat) (s : fdev) : fdev * list (titem V) :=
  match l with
  | [] => (s, [])
  | n :: r => let '(s', t) := report_all r (forget n s) in (s', report s n ++ t)
  end.

Definition fstep (s : fdev) (e : fevent) : option (fdev * list (titem V)) :=
  match e with
  | FFill b data =>
    Some (mk_fdev (f_op s) (f_used s) (f_sq s) (f_fin s) (f_cq s) (upd (f_mem s) b data) (f_cell s) (f_len s) (S (f_now s)), [])
  (* bdev_uring.rs:74-88 [add_read] *)
  | FRead n q id soff cnt b =>
    if f_used s n then None
    else Some (push n q id (WRead (units (byte_offset soff)) (units (byte_length cnt)) b) s,
               [TIssue n q id (RRead (soff * per) (cnt * per))])
  (* bdev_uring.rs:90-104 [add_write] *)
  | FWrite n q id soff cnt b =>
    if f_used s n then None
    else Some (push n q id (WWrite (units (byte_offset soff)) (units (byte_length cnt)) b) s,
               [TIssue n q id (RWrite (soff * per) (firstn (cnt * per) (f_mem s b)))])
  (* bdev_uring.rs:106-121 [add_flush] *)
  | FFlush n q id =>
    if f_used s n then None
    else if osync
    then Some (mk_fdev (upd (f_op s) n (Some (mk_fop q id WSync (Finished true)))) (upd (f_used s) n true)
                 (f_sq s) (upd (f_fin s) q (f_fin s q ++ [n])) (f_cq s) (f_mem s) (f_cell s) (f_len s) (S (f_now s)),
               [TIssue n q id RFlush])
    else Some (push n q id WSync s, [TIssue n q id RFlush])
  (* bdev_uring.rs:123-134 [submit]; when the system call fails [k] is less than all *)
  | FSubmit q k =>
    let l := firstn k (f_sq s q) in
    Some (mk_fdev (fun n => if is_in n l then option_map (started (f_now s)) (f_op s n) else f_op s n) (f_used s)
            (upd (f_sq s) q (skipn k (f_sq s q))) (f_fin s) (f_cq s) (f_mem s) (f_cell s) (f_len s) (S (f_now s)), [])
  | FMove n i =>
    match f_op s n with
    | Some (mk_fop q id (WRead off len b) (Running moved since)) =>
      (* from the file, up to its end, to the buffer *)
      match cur_cell (f_cell s (off + i)) with
      | None => None
      | Some v =>
        if (i <? len) && (off + i <? f_len s) && (i <? length (f_mem s b)) then
          Some (mk_fdev (upd (f_op s) n (Some (mk_fop q id (WRead off len b) (Running (upd moved i true) since)))) (f_used s)
                  (f_sq s) (f_fin s) (f_cq s) (upd (f_mem s) b (set_nth i v (f_mem s b))) (f_cell s) (f_len s) (S (f_now s)), [])
        else None
      end
    | Some (mk_fop q id (WWrite off len b) (Running moved since)) =>
      (* from the buffer to the file, if it was opened for writing *)
      match nth_error (f_mem s b) i with
      | None => None
      | Some v =>
        if (i <? len) && negb (moved i) && negb readonly then
          Some (mk_fdev (upd (f_op s) n (Some (mk_fop q id (WWrite off len b) (Running (upd moved i true) since)))) (f_used s)
                  (f_sq s) (f_fin s) (f_cq s) (f_mem s)
                  (upd (f_cell s) (off + i) (mk_cell (f_now s) n v :: f_cell s (off + i)))
                  (Nat.max (f_len s) (off + i + 1)) (S (f_now s)), [])
        else None
      end
    | _ => None
    end
  | FComplete n r =>
    match f_op s n with
    | Some (mk_fop q id w (Running moved since)) =>
      if possible w moved r then
        Some (mk_fdev (upd (f_op s) n (Some (mk_fop q id w (Finished (success r))))) (f_used s)
                (f_sq s) (f_fin s) (upd (f_cq s) q (f_cq s q ++ [n])) (f_mem s)
                (fun x => stored n since w r (f_cell s x)) (f_len s) (S (f_now s)), [])
      else None
    | _ => None
    end
  (* bdev_uring.rs:136-156 [poll] *)
  | FPoll q =>
    Some (report_all (f_fin s q ++ f_cq s q)
            (mk_fdev (f_op s) (f_used s) (f_sq s) (upd (f_fin s) q []) (upd (f_cq s) q []) (f_mem s) (f_cell s) (f_len s) (S (f_now s))))
  | FCrash survivor =>
    Some (mk_fdev (fun _ => None) (f_used s) (fun _ => []) (fun _ => []) (fun _ => []) (fun _ => [])
            (fun x => crashed_cells (f_cell s x) (survivor x)) (f_len s) (S (f_now s)), [TCrash])
  end.

Fixpoint frun (s : fdev) (es : list fevent) : option (fdev * list (titem V)) :=
  match es with
  | [] => Some (s, [])
  | e :: r =>
    match fstep s e with
    | None => None
    | Some (s1, t1) =>
      match frun s1 r with
      | None => None
      | Some (s2, t2) => Some (s2, t1 ++ t2)
      end
    end
  end.

End Device.
Arguments fdev : clear implicits. Arguments mk_fdev {V}.
Arguments fevent : clear implicits.
Arguments FFill {V}. Arguments FRead {V}. Arguments FWrite {V}. Arguments FFlush {V}. Arguments FSubmit {V}.
Arguments FMove {V}. Arguments FComplete {V}. Arguments FPoll {V}. Arguments FCrash {V}.
