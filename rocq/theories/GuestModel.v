(** Model of a whole running vhost-user-blk backend: the queue threads of
    VhostModel.v side by side over one guest memory and one block device.

    The device is known only by what passes through its channels: the requests the
    threads hand over and the completions the channels report, as a history in the
    sense of DiskSpec.v, over sectors of 512 bytes.  Which device it is (lazy,
    encrypted, a plain file) is left open here. *)
From Coq Require Import List NArith Arith Bool.
From Verif Require Import Base DiskSpec VhostModel.
Import ListNotations.

(** src/block_device/mod.rs:13-24 IoChannel: buffers are counted in sectors of
    SECTOR_SIZE (utils/block.rs, 512) bytes. *)
Definition sector := list byte.

(** A buffer of [k] sectors, sector by sector. *)
Fixpoint split_sectors (k : nat) (buf : list byte) : list sector :=
  match k with
  | O => []
  | S k' => firstn (N.to_nat SECTOR) buf :: split_sectors k' (skipn (N.to_nat SECTOR) buf)
  end.

(** The channel calls of backend_thread.rs:276-281 (add_read), 328-333 (add_write)
    and 345 (add_flush) as device requests. *)
Definition req_of (o : vop) : req sector :=
  match o with
  | VRead sec cnt _ => RRead (N.to_nat sec) (N.to_nat cnt)
  | VWrite sec cnt _ data => RWrite (N.to_nat sec) (split_sectors (N.to_nat cnt) data)
  | VFlush _ => RFlush
  end.

(** What a successful read leaves in the buffer.  Simplified: sectors beyond the
    end of the device ([None]) leave no bytes; the theorems are about drivers that
    stay inside the device. *)
Definition bytes_of (data : list (option sector)) : list byte :=
  flat_map (fun o => match o with Some s => s | None => [] end) data.

(** The backend process: one thread per queue (src/backends/vhost/backend.rs:67-79,
    queues_per_thread 294-296), all of them working on the same guest memory.  The
    memory field of the thread states is not used between events. *)
Record gst := mk_gst { g_mem : gmem; g_queue : nat -> vstate }.

Inductive gevent :=
| GPop (q : nat) (c : chain) (n : nat)      (* queue [q] takes chain [c]; [n] is the serial if it is handed over *)
| GDone (n q id : nat) (ok : bool) (data : list (option sector)) (* the channel of [q] reports [(id, ok)] *)
| GSignal (q : nat) (event_idx needs : bool)
| GStore (a : N) (b : byte)                 (* the guest writes its memory *)
| GCrash (m : gmem).                        (* power failure; the guest and the backend start again *)

Section Backend.
Variable valid : N -> bool.
Variable qsize : N.
Variable device_id : list byte.
(** Slots and buffer size of each thread (backend_thread.rs:72-116). *)
Variable nslots : nat.
Variable bufsize : N.

(** backend.rs:43-90 new: every thread starts with free slots. *)
Definition ginit (m : gmem) : gst := mk_gst m (fun _ => vinit m nslots bufsize).

(** The state thread [q] runs in. *)
Definition at_queue (g : gst) (q : nat) : vstate := set_mem (g_mem g) (g_queue g q).

(** Thread [q] has come to [s]. *)
Definition put (g : gst) (q : nat) (s : vstate) : gst := mk_gst (v_mem s) (upd (g_queue g) q s).

(** The calls made on the channel between [s] and [s']. *)
Definition handed (n q : nat) (s s' : vstate) : list (titem sector) :=
  map (fun o => TIssue n q (vop_id o) (req_of o)) (skipn (length (v_ops s)) (v_ops s')).

(** One event of a thread (backend_thread.rs:387-452, see VhostModel.v) or of the
    surroundings; with what passed through the channels. *)
Definition gstep (g : gst) (e : gevent) : res (gst * list (titem sector)) :=
  match e with
  | GPop q c n =>
    let! s' := process_chain valid qsize device_id c (at_queue g q) in
    Ok (put g q s', handed n q (at_queue g q) s')
  | GDone n q id ok data =>
    let! s' := complete_one valid qsize id ok (bytes_of data) (at_queue g q) in
    Ok (put g q s', [TDone n q id ok data])
  | GSignal q ei needs => Ok (put g q (signal ei needs (at_queue g q)), [])
  | GStore a b => Ok (mk_gst (gm_upd (g_mem g) a b) (g_queue g), [])
  | GCrash m => Ok (ginit m, [TCrash])
  end.
End Backend.
