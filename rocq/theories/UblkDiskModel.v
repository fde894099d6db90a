(** Model of a whole running ublk backend: the handlers of UblkModel.v, one per queue
    thread, over one block device.

    As in GuestModel.v the device is known only by what passes through its channels:
    the requests the handlers hand over and the completions the channels report. *)
From Coq Require Import List NArith ZArith Arith Bool.
From Verif Require Import Base DiskSpec UblkModel UblkSpec GuestModel.
Import ListNotations.

(** The channel calls of io_handler.rs:115-146 (add_read, add_write, add_flush) as device
    requests, over sectors of 512 bytes. *)
Definition req_of (o : chop) : req sector :=
  match o with
  | ChRead sec cnt _ => RRead (N.to_nat sec) (N.to_nat cnt)
  | ChWrite sec cnt _ data => RWrite (N.to_nat sec) (split_sectors (N.to_nat cnt) data)
  | ChFlush _ => RFlush
  end.

(** The backend process: one handler per queue (ublk/mod.rs:231-281 serve_ublk_queue).
    [u_serial q tag] is not in the program: the number under which the histories know
    the request that came last with [tag] on queue [q]. *)
Record ust := mk_ust { u_queue : nat -> hstate; u_serial : nat -> nat -> nat }.

Inductive uevent :=
| UHandle (q tag : nat) (d : list byte) (op_flags start nr : N) (last : bool) (n : nat)
    (* the driver hands request [n] to queue [q] *)
| UEnqueue (q : nat)  (* the loop of queue [q] takes the first pending request *)
| UPoll (n q id : nat) (ok : bool) (data : list (option sector)) (* the channel of [q] reports [(id, ok)] *)
| UStop (q : nat)     (* the loop of queue [q] ends *)
| UCrash.             (* power failure; the backend starts again *)

(** io_handler.rs:180-198, one turn of the inner loop of process_pending_requests. *)
Definition enqueue_one (s : hstate) : res hstate :=
  match h_pending s with
  | [] => Ok s
  | r :: rest =>
    let s := mk_hstate rest (h_inflight s) (h_backend s) (h_bufs s) (h_tr s)
               (h_draining s) (h_chan s) (h_ops s) (h_done s) in
    let! p := enqueue r s in
    let '(s1, ok) := p in
    if ok
    then if q_tag r <? length (h_inflight s1)
         then Ok (mk_hstate (h_pending s1) (set_nth (q_tag r) (Some r) (h_inflight s1)) (h_backend s1)
                    (h_bufs s1) (h_tr s1) (h_draining s1) (h_chan s1) (h_ops s1) (h_done s1))
         else Panic
    else complete (q_tag r) UInval s1
  end.

Section Backend.
Variable max_io_bytes : N.
Variable depth : nat.

(** ublk/mod.rs:247-280: every handler starts empty. *)
Definition uinit : ust := mk_ust (fun _ => hinit max_io_bytes depth) (fun _ _ => 0).

(** Queue [q] has come to [s]. *)
Definition put (u : ust) (q : nat) (s : hstate) : ust := mk_ust (upd (u_queue u) q s) (u_serial u).

(** The calls made on the channel of [q] between [s] and [s']. *)
Definition handed (u : ust) (q : nat) (s s' : hstate) : list (titem sector) :=
  map (fun o => TIssue (u_serial u q (op_tag o)) q (op_tag o) (req_of o)) (skipn (length (h_ops s)) (h_ops s')).

(** One step of a queue thread or of the surroundings, with what passed through the
    channels.  The threads run concurrently: their steps come in any order.
    Simplified: submit (io_handler.rs:200-212) succeeds; C39 has what happens when it
    does not. *)
Definition ustep (u : ust) (e : uevent) : res (ust * list (titem sector)) :=
  match e with
  | UHandle q tag d fl st nr last n =>
    let! s' := handle max_io_bytes false tag d fl st nr last (u_queue u q) in
    Ok (mk_ust (upd (u_queue u) q s') (upd (u_serial u) q (upd (u_serial u q) tag n)), [])
  | UEnqueue q =>
    let! s' := enqueue_one (u_queue u q) in
    Ok (put u q s', handed u q (u_queue u q) s')
  | UPoll n q id ok data =>
    let! s' := poll_all [(id, ok, bytes_of data)] (u_queue u q) in
    Ok (put u q s', [TDone n q id ok data])
  | UStop q => Ok (put u q (stop_draining (u_queue u q)), [])
  | UCrash => Ok (uinit, [TCrash])
  end.
End Backend.
