(** Model of the ublk request handler (src/backends/ublk/io_handler.rs).

    The kernel driver and the I/O channel are the environment: the driver hands over
    request tags together with their buffers, the channel answers the operations it
    was given.  The loop of process_pending_requests is split into its iterations so
    that the channel's progress can be anything. *)
From Coq Require Import List NArith ZArith Arith Bool.
From Verif Require Import Base TrackerModel.
Import ListNotations.
Local Open Scope N_scope.

(** ublk/mod.rs:22-27 UblkOp. *)
Inductive ublk_op := OpRead | OpWrite | OpFlush | OpUnsupported.

(** ublk/mod.rs:29-38 UblkOp::from_raw (UBLK_IO_OP_READ = 0, WRITE = 1, FLUSH = 2). *)
Definition op_from_raw (x : N) : ublk_op :=
  if x =? 0 then OpRead else if x =? 1 then OpWrite else if x =? 2 then OpFlush else OpUnsupported.

(** ublk/mod.rs:40-47 UblkIoRequest; request_id is the tag. *)
Record ureq := mk_ureq { q_op : ublk_op; q_sector : N; q_count : N; q_tag : nat; q_bytes : N }.

(** What is sent to the I/O channel; a write carries the backend buffer's first
    bytes. *)
Inductive chop := ChRead (sector count : N) (tag : nat)
                | ChWrite (sector count : N) (tag : nat) (data : list byte)
                | ChFlush (tag : nat).

(** A completion given to the driver: UblkIORes::Result(n) or UblkError::InvalidVal. *)
Inductive ures := UResult (n : Z) | UInval.

(** io_handler.rs:25-33 UblkIoHandler ([max_io_bytes] is a parameter below).
    [h_draining]: process_pending_requests is running.  [h_chan], [h_ops], [h_done]
    are the environment's view: tags outstanding in the channel, all operations
    sent to it, and all completions (tag, result, contents of the tag's buffer). *)
Record hstate := mk_hstate {
  h_pending : list ureq; h_inflight : list (option ureq);
  h_backend : list (list byte); h_bufs : list (list byte); h_tr : tracker;
  h_draining : bool; h_chan : list nat; h_ops : list chop;
  h_done : list (nat * ures * list byte) }.

Section Ublk.
Variable max_io_bytes : N.

(** io_handler.rs:36-62 new, with the driver's buffers of ublk/mod.rs:254-255 (one of
    max_io_bytes bytes per tag). *)
Definition hinit (queue_size : nat) : hstate :=
  mk_hstate [] (repeat None queue_size)
    (repeat (repeat 0 (N.to_nat max_io_bytes)) queue_size)
    (repeat (repeat 0 (N.to_nat max_io_bytes)) queue_size)
    (tracker_new queue_size) false [] [] [].

(** q.complete_io_cmd_unified(tag, buffer, result); self.bufs[tag] panics when out
    of range.  Errors of the call are logged only and not modelled. *)
Definition complete (tag : nat) (r : ures) (s : hstate) : res hstate :=
  match nth_error (h_bufs s) tag with
  | None => Panic
  | Some b => Ok (mk_hstate (h_pending s) (h_inflight s) (h_backend s) (h_bufs s) (h_tr s)
                    (h_draining s) (h_chan s) (h_ops s) (h_done s ++ [(tag, r, b)]))
  end.

(** io_handler.rs:64-99 handle.  [d]: the contents of the tag's buffer when the driver
    hands the request over. *)
Definition handle (is_tgt : bool) (tag : nat) (d : list byte) (op_flags start nr : N) (last : bool)
  (s : hstate) : res hstate :=
  if is_tgt then Ok s
  else
    let s := mk_hstate (h_pending s) (h_inflight s) (h_backend s) (set_nth tag d (h_bufs s)) (h_tr s)
               (h_draining s) (h_chan s) (h_ops s) (h_done s) in
    let op := op_from_raw (N.land op_flags 255) in
    let bytes := nr * 512 in
    if max_io_bytes <? bytes then complete tag UInval s
    else
      Ok (mk_hstate (h_pending s ++ [mk_ureq op start nr tag bytes]) (h_inflight s) (h_backend s)
            (h_bufs s) (h_tr s) (if last then true else h_draining s) (h_chan s) (h_ops s) (h_done s)).

(** io_handler.rs:101-149 enqueue_request; the boolean is false for
    Err(UblkIoError::Invalid). *)
Definition enqueue (r : ureq) (s : hstate) : res (hstate * bool) :=
  let tag := q_tag r in
  let! bk := index (h_backend s) tag in
  let! ub := index (h_bufs s) tag in
  if (N.of_nat (length bk) <? q_bytes r) || (N.of_nat (length ub) <? q_bytes r) then Ok (s, false)
  else
    match q_op r with
    | OpRead =>
      Ok (mk_hstate (h_pending s) (h_inflight s) (h_backend s) (h_bufs s)
            (t_add_read tag (q_sector r) (q_count r) (h_tr s)) (h_draining s) (h_chan s ++ [tag])
            (h_ops s ++ [ChRead (q_sector r) (q_count r) tag]) (h_done s), true)
    | OpWrite =>
      let d := firstn (N.to_nat (q_bytes r)) ub in
      Ok (mk_hstate (h_pending s) (h_inflight s) (set_nth tag (d ++ skipn (N.to_nat (q_bytes r)) bk) (h_backend s))
            (h_bufs s)
            (t_add_write tag (q_sector r) (q_count r) (h_tr s)) (h_draining s) (h_chan s ++ [tag])
            (h_ops s ++ [ChWrite (q_sector r) (q_count r) tag d]) (h_done s), true)
    | OpFlush =>
      Ok (mk_hstate (h_pending s) (h_inflight s) (h_backend s) (h_bufs s)
            (t_add_flush tag (h_tr s)) (h_draining s) (h_chan s ++ [tag])
            (h_ops s ++ [ChFlush tag]) (h_done s), true)
    | OpUnsupported => Ok (s, false)
    end.

(** [bytes as i32] *)
Definition as_i32 (n : N) : Z :=
  let m := (Z.of_N n mod 2 ^ 32)%Z in if (m <? 2 ^ 31)%Z then m else (m - 2 ^ 32)%Z.

(** io_handler.rs:151-174 complete_request, followed by the completion command of
    215-234. *)
Definition complete_request (r : ureq) (success : bool) (s : hstate) : res hstate :=
  let tag := q_tag r in
  if negb success then complete tag UInval s
  else
    match q_op r with
    | OpRead =>
      let! bk := index (h_backend s) tag in
      let! src := slice bk 0 (N.to_nat (q_bytes r)) in
      let! ub := index (h_bufs s) tag in
      let! dst := slice ub 0 (N.to_nat (q_bytes r)) in
      complete tag (UResult (as_i32 (q_bytes r)))
        (mk_hstate (h_pending s) (h_inflight s) (h_backend s)
           (set_nth tag (src ++ skipn (N.to_nat (q_bytes r)) ub) (h_bufs s)) (h_tr s)
           (h_draining s) (h_chan s) (h_ops s) (h_done s))
    | OpWrite => complete tag (UResult (as_i32 (q_bytes r))) s
    | OpFlush => complete tag (UResult 0) s
    | OpUnsupported => complete tag UInval s
    end.

(** io_handler.rs:180-198: the inner loop over pending_requests; also returns
    whether anything was queued. *)
Fixpoint enqueue_all (rs : list ureq) (queued : bool) (s : hstate) : res (hstate * bool) :=
  match rs with
  | [] => Ok (s, queued)
  | r :: rest =>
    let s := mk_hstate rest (h_inflight s) (h_backend s) (h_bufs s) (h_tr s)
               (h_draining s) (h_chan s) (h_ops s) (h_done s) in
    let! p := enqueue r s in
    let '(s1, ok) := p in
    if ok
    then if (q_tag r <? length (h_inflight s1))%nat
         then enqueue_all rest true
                (mk_hstate (h_pending s1) (set_nth (q_tag r) (Some r) (h_inflight s1)) (h_backend s1)
                   (h_bufs s1) (h_tr s1) (h_draining s1) (h_chan s1) (h_ops s1) (h_done s1))
         else Panic
    else let! s2 := complete (q_tag r) UInval s1 in enqueue_all rest queued s2
  end.

(** io_handler.rs:202-212: after a failed submit every request in flight is failed. *)
Fixpoint fail_all (tags : list nat) (s : hstate) : res hstate :=
  match tags with
  | [] => Ok s
  | t :: rest =>
    match nth_error (h_inflight s) t with
    | Some (Some _) =>
      let! s1 := complete t UInval
        (mk_hstate (h_pending s) (set_nth t None (h_inflight s)) (h_backend s) (h_bufs s) (h_tr s)
           (h_draining s) (h_chan s) (h_ops s) (h_done s)) in
      fail_all rest s1
    | _ => fail_all rest s
    end
  end.

(** Remove one occurrence. *)
Fixpoint remove1 (x : nat) (l : list nat) : list nat :=
  match l with [] => [] | y :: r => if (x =? y)%nat then r else y :: remove1 x r end.

(** io_handler.rs:216-245: the completions returned by poll.  [data]: what the
    channel stored at the start of the tag's backend buffer. *)
Fixpoint poll_all (ps : list (nat * bool * list byte)) (s : hstate) : res hstate :=
  match ps with
  | [] => Ok s
  | (id, success, data) :: rest =>
    let bk := nth id (h_backend s) [] in
    let s := mk_hstate (h_pending s) (h_inflight s)
               (set_nth id (data ++ skipn (length data) bk) (h_backend s)) (h_bufs s) (h_tr s)
               (h_draining s) (remove1 id (h_chan s)) (h_ops s) (h_done s) in
    match nth_error (h_inflight s) id with
    | Some (Some r) =>
      let! s1 := complete_request r success
        (mk_hstate (h_pending s) (set_nth id None (h_inflight s)) (h_backend s) (h_bufs s)
           (t_clear id (h_tr s)) (h_draining s) (h_chan s) (h_ops s) (h_done s)) in
      poll_all rest s1
    | _ => poll_all rest s
    end
  end.

Definition stop_draining (s : hstate) : hstate :=
  mk_hstate (h_pending s) (h_inflight s) (h_backend s) (h_bufs s) (h_tr s) false
    (h_chan s) (h_ops s) (h_done s).

(** io_handler.rs:176-253 process_pending_requests: the loop condition and one
    iteration.  [busy]: io_channel.busy(); [submit_ok]: the result of submit();
    [polled]: the result of poll(). *)
Definition iteration (busy submit_ok : bool) (polled : list (nat * bool * list byte)) (s : hstate)
  : res hstate :=
  if match h_pending s with [] => true | _ => false end && negb busy then Ok (stop_draining s)
  else
    let! p := enqueue_all (h_pending s) false s in
    let '(s1, queued) := p in
    if queued && negb submit_ok
    then let! s2 := fail_all (seq 0 (length (h_inflight s1))) s1 in Ok (stop_draining s2)
    else poll_all polled s1.

Inductive hevent :=
| EHandle (is_tgt : bool) (tag : nat) (d : list byte) (op_flags start nr : N) (last : bool)
| EIter (busy submit_ok : bool) (polled : list (nat * bool * list byte)).

Definition hstep (s : hstate) (e : hevent) : res hstate :=
  match e with
  | EHandle tgt tag d fl st nr last => handle tgt tag d fl st nr last s
  | EIter b ok ps => iteration b ok ps s
  end.

Fixpoint hrun (s : hstate) (es : list hevent) : res hstate :=
  match es with [] => Ok s | e :: r => let! s1 := hstep s e in hrun s1 r end.
End Ublk.
