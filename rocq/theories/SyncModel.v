(** Model of the synchronous block device: src/block_device/bdev_sync.rs.

    A channel serves each request inside [add_read]/[add_write]/[add_flush] with
    the standard library's [read_exact_at]/[write_all_at] loops and [sync_all],
    and keeps the results for the next [poll].  Channels of one device run in
    different threads, so their system calls interleave; the operating system
    may transfer fewer bytes than asked, interrupt a call or fail it.

    The file is an array of units of [us] bytes, [per] of them in a sector of 512
    bytes.  A unit is what a system call or a power failure does not tear: with
    [us = 1] a byte, with [us = 512] a sector (as with O_DIRECT).  For every unit
    there are the values that may be found after a power failure, newest first.
    Each carries the moment it was put there and the serial number of the request
    that put it there. *)
From Coq Require Import List Arith NArith Bool.
Import ListNotations.
From Verif Require Import Base DiskSpec CryptModel.

(** bdev_sync.rs:47-48 and 64-65: [sector_offset * SECTOR_SIZE as u64] (a
    wrapping product, as in release builds). *)
Definition byte_offset (sector_offset : nat) : N := ((N.of_nat sector_offset * 512) mod 2 ^ 64)%N.

(** bdev_sync.rs:133-160 [SyncBlockDevice::new]: [len] is the length of the
    file, the result the number of sectors. *)
Definition open_device (len : nat) : res nat :=
  if negb (len mod SECTOR =? 0) then Err 1%N (* InvalidParameter *) else Ok (len / SECTOR).

Section Device.
Context {V : Type}.        (* units *)
Variable us : N.           (* bytes of a unit *)
Variable per : nat.        (* units of a sector *)
Variable readonly : bool.  (* bdev_sync.rs:21: opened without write access *)
Variable osync : bool.     (* bdev_sync.rs:27-29: opened with O_SYNC *)

(** One value of one byte. *)
Record cell := mk_cell { ce_time : nat; ce_by : nat; ce_val : V }.

(** What a channel is doing inside [add_*]: the system call loop's position.
    [GRead]: [buf] is the destination slice, [pos] bytes of which are filled.
    [GWrite]: [pos] bytes are behind the loop, [cached] more have reached the
    page cache in the current call.  [GSync]: in [fsync] since moment [since]. *)
Inductive going :=
| GRead (off : nat) (buf : list V) (pos : nat)
| GWrite (off : nat) (data : list V) (pos cached : nat)
| GSync (since : nat).

(** bdev_sync.rs:13-16 [SyncIoChannel]: [ch_finished] is [finished_requests],
    in the order pushed, with the request's serial and, for a successful read,
    the slice it filled. *)
Record chan := mk_chan {
  ch_going : option (nat * nat * going);              (* serial, id *)
  ch_finished : list (nat * nat * bool * list V)
}.

Record sdev := mk_sdev {
  s_chan : nat -> chan;
  s_used : nat -> bool;             (* serials used so far *)
  s_cell : nat -> list cell;        (* the bytes of the file *)
  s_len : nat;                      (* its length *)
  s_now : nat;                      (* advances with every step *)
  s_panic : bool
}.

Definition idle := mk_chan None [].

Definition new_sdev (len : nat) (contents : nat -> V) : sdev :=
  mk_sdev (fun _ => idle) (fun n => n =? 0) (fun x => [mk_cell 0 0 (contents x)]) len 1 false.

(** The result of one pass of the loop of [FileExt::read_exact_at]
    ([while !buf.is_empty()]: a call that returns 0 ends it with
    UnexpectedEof, an interrupted one is repeated) and of
    [FileExt::write_all_at] (0 ends it with WriteZero): a transfer of [k]
    units, EINTR, or any other error. *)
Inductive outcome := Moved (k : nat) | Interrupted | Failed.

Inductive sevent :=
| SRead (n q id soff scnt : nat) (buf : list V)   (* add_read; [buf]: the shared buffer *)
| SWrite (n q id soff scnt : nat) (buf : list V)  (* add_write *)
| SFlush (n q id : nat)                           (* add_flush *)
| SCopy (q k : nat)          (* the running write's next [k] bytes reach the page cache *)
| SReturn (q : nat) (o : outcome)  (* the running system call returns *)
| SPoll (q : nat)
| SCrash (survivor : nat -> nat).  (* power failure, restart *)

Definition cur_cell (l : list cell) : option V := option_map ce_val (hd_error l).

(** [fsync], or the tail of a write with O_SYNC: values older than the newest
    one known to be on stable storage are gone for good. *)
Fixpoint settle (stable : cell -> bool) (l : list cell) : list cell :=
  match l with
  | [] => []
  | e :: r => if stable e then [e] else e :: settle stable r
  end.

(** The bytes [off, off+k) of the file, as [pread] finds them. *)
Fixpoint fetch (f : nat -> list cell) (off k : nat) : option (list V) :=
  match k with
  | O => Some []
  | S k' => match cur_cell (f off), fetch f (S off) k' with
            | Some v, Some l => Some (v :: l)
            | _, _ => None
            end
  end.

(** Bytes [l] are put at [off] by request [n] at moment [t]. *)
Fixpoint store (t n : nat) (f : nat -> list cell) (off : nat) (l : list V) : nat -> list cell :=
  match l with
  | [] => f
  | v :: r => store t n (upd f off (mk_cell t n v :: f off)) (S off) r
  end.

Definition crashed_cells (l : list cell) (i : nat) : list cell :=
  match nth_error l i with
  | Some e => [mk_cell 0 0 (ce_val e)]
  | None => match l with e :: _ => [mk_cell 0 0 (ce_val e)] | [] => [] end
  end.

Definition set_chan (q : nat) (c : chan) (s : sdev) : sdev :=
  mk_sdev (upd (s_chan s) q c) (s_used s) (s_cell s) (s_len s) (S (s_now s)) (s_panic s).
Definition set_cells (f : nat -> list cell) (len : nat) (s : sdev) : sdev :=
  mk_sdev (s_chan s) (s_used s) f len (s_now s) (s_panic s).
Definition panicked (s : sdev) : sdev :=
  mk_sdev (s_chan s) (s_used s) (s_cell s) (s_len s) (s_now s) true.

(** [finished_requests.push((id, ok))] and return to the caller. *)
Definition ends (q n id : nat) (ok : bool) (data : list V) (s : sdev) : sdev :=
  set_chan q (mk_chan None (ch_finished (s_chan s q) ++ [(n, id, ok, data)])) s.

(** The loops start: [while !buf.is_empty()] of an empty slice makes no system
    call at all. *)
Definition begins (q n id : nat) (g : going) (s : sdev) : sdev :=
  let s' := mk_sdev (s_chan s) (upd (s_used s) n true) (s_cell s) (s_len s) (s_now s) (s_panic s) in
  match g with
  | GRead _ [] _ | GWrite _ [] _ _ => ends q n id true [] s'
  | _ => set_chan q (mk_chan (Some (n, id, g)) (ch_finished (s_chan s q))) s'
  end.

(** Replace [length l] elements of [buf] from [pos] on. *)
Definition fill (buf : list V) (pos : nat) (l : list V) : list V :=
  firstn pos buf ++ l ++ skipn (pos + length l) buf.

(** A position in the file, in units. *)
Definition unit_offset (soff : nat) : nat := N.to_nat (byte_offset soff / us).

Definition sstep (s : sdev) (e : sevent) : option (sdev * list (titem V)) :=
  if s_panic s then None else
  match e with
  (* bdev_sync.rs:45-60 [add_read]; the caller's thread is inside at most one
     call per channel ([&mut self]) *)
  | SRead n q id soff scnt buf =>
    let len := scnt * per in
    if s_used s n || is_some (ch_going (s_chan s q)) then None else
    if length buf <? len then Some (panicked s, [])   (* buf.as_mut_slice()[..len] *)
    else Some (begins q n id (GRead (unit_offset soff) (firstn len buf) 0) s,
               [TIssue n q id (RRead (soff * per) len)])
  (* bdev_sync.rs:62-74 [add_write] *)
  | SWrite n q id soff scnt buf =>
    let len := scnt * per in
    if s_used s n || is_some (ch_going (s_chan s q)) then None else
    if length buf <? len then Some (panicked s, [])   (* buf.as_slice()[..len] *)
    else Some (begins q n id (GWrite (unit_offset soff) (firstn len buf) 0 0) s,
               [TIssue n q id (RWrite (soff * per) (firstn len buf))])
  (* bdev_sync.rs:76-88 [add_flush]; [File::flush] does nothing and cannot fail *)
  | SFlush n q id =>
    if s_used s n || is_some (ch_going (s_chan s q)) then None
    else Some (begins q n id (GSync (s_now s)) s, [TIssue n q id RFlush])
  | SCopy q k =>
    match ch_going (s_chan s q) with
    | Some (n, id, GWrite off data pos cached) =>
      (* no write access: EBADF before anything is copied *)
      if readonly || (length data <? pos + cached + k) then None
      else
        let at_ := off + pos + cached in
        let piece := firstn k (skipn (pos + cached) data) in
        Some (set_chan q (mk_chan (Some (n, id, GWrite off data pos (cached + k)))
                                  (ch_finished (s_chan s q)))
                (set_cells (store (s_now s) n (s_cell s) at_ piece)
                           (Nat.max (s_len s) (at_ + k)) s), [])
    | _ => None
    end
  | SReturn q o =>
    match ch_going (s_chan s q) with
    | Some (n, id, GRead off buf pos) =>
      match o with
      | Moved O => Some (ends q n id false [] s, [])
      | Moved k =>
        (* pread: at most what is left of the slice, and of the file *)
        if (length buf <? pos + k) || (s_len s <? off + pos + k) then None
        else match fetch (s_cell s) (off + pos) k with
             | None => None
             | Some l =>
               let buf' := fill buf pos l in
               if pos + k =? length buf then Some (ends q n id true buf' s, [])
               else Some (set_chan q (mk_chan (Some (n, id, GRead off buf' (pos + k)))
                                              (ch_finished (s_chan s q))) s, [])
             end
      | Interrupted => Some (set_chan q (s_chan s q) s, [])
      | Failed => Some (ends q n id false [] s, [])
      end
    | Some (n, id, GWrite off data pos cached) =>
      match o with
      | Moved O => if cached =? 0 then Some (ends q n id false [] s, []) else None
      | Moved k =>
        if negb (k =? cached) then None else
        (* with O_SYNC pwrite returns once its own bytes are on stable storage *)
        let f := fun x => if osync && (off + pos <=? x) && (x <? off + pos + k)
                          then settle (fun e => ce_by e =? n) (s_cell s x) else s_cell s x in
        let s' := set_cells f (s_len s) s in
        if pos + k =? length data then Some (ends q n id true [] s', [])
        else Some (set_chan q (mk_chan (Some (n, id, GWrite off data (pos + k) 0))
                                       (ch_finished (s_chan s q))) s', [])
      (* EINTR is returned only when nothing was transferred *)
      | Interrupted => if cached =? 0 then Some (set_chan q (s_chan s q) s, []) else None
      | Failed => Some (ends q n id false [] s, [])
      end
    | Some (n, id, GSync since) =>
      match o with
      (* fsync returns 0: what was written before it was called is durable *)
      | Moved O => Some (ends q n id true [] (set_cells (fun x => settle (fun e => ce_time e <? since) (s_cell s x)) (s_len s) s), [])
      | Moved _ => None
      | Interrupted => Some (set_chan q (s_chan s q) s, [])     (* sync_all repeats it *)
      | Failed => Some (ends q n id false [] s, [])
      end
    | None => None
    end
  (* bdev_sync.rs:94-96 [poll] *)
  | SPoll q =>
    if is_some (ch_going (s_chan s q)) then None
    else Some (set_chan q idle s,
               map (fun '(n, id, ok, data) => TDone n q id ok (map Some data)) (ch_finished (s_chan s q)))
  | SCrash survivor =>
    Some (mk_sdev (fun _ => idle) (s_used s) (fun x => crashed_cells (s_cell s x) (survivor x))
                  (s_len s) (S (s_now s)) false, [TCrash])
  end.

Fixpoint srun (s : sdev) (es : list sevent) : option (sdev * list (titem V)) :=
  match es with
  | [] => Some (s, [])
  | e :: r =>
    match sstep s e with
    | None => None
    | Some (s1, t1) =>
      match srun s1 r with
      | None => None
      | Some (s2, t2) => Some (s2, t1 ++ t2)
      end
    end
  end.

(** bdev_sync.rs:98-100 [busy]. *)
Definition busy (s : sdev) (q : nat) : bool :=
  match ch_finished (s_chan s q) with [] => false | _ => true end.

End Device.
Arguments cell : clear implicits. Arguments mk_cell {V}.
Arguments going : clear implicits. Arguments GRead {V}. Arguments GWrite {V}. Arguments GSync {V}.
Arguments chan : clear implicits. Arguments mk_chan {V}.
Arguments sdev : clear implicits. Arguments mk_sdev {V}.
Arguments sevent : clear implicits. Arguments SRead {V}. Arguments SWrite {V}. Arguments SFlush {V}.
Arguments SCopy {V}. Arguments SReturn {V}. Arguments SPoll {V}. Arguments SCrash {V}.
