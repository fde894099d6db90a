(** What the kernel driver sees of a ublk disk, without reference to pending lists,
    backend buffers or channels: the requests it hands over under a tag, and the
    result and the tag's buffer when the tag comes back. *)
From Coq Require Import List NArith ZArith Arith Bool.
From Verif Require Import Base DiskSpec UblkModel GuestModel GuestSpec UblkDiskModel.
Import ListNotations.
Local Open Scope N_scope.

(** A request the driver waits for: queue, tag, serial, and the I/O descriptor
    (operation, first sector, number of sectors). *)
Record pending := mk_pending { p_queue : nat; p_tag : nat; p_serial : nat; p_op : N; p_start : N; p_nr : N }.

(** What a request, with buffer [d], asks of a disk (UBLK_IO_OP_READ = 0, WRITE = 1,
    FLUSH = 2). *)
Inductive asks (p : pending) (d : list byte) : req sector -> Prop :=
| asks_read : p_op p = 0 -> asks p d (RRead (N.to_nat (p_start p)) (N.to_nat (p_nr p)))
| asks_write : forall v, p_op p = 1 -> N.of_nat (length v) = p_nr p ->
    is_sectors (firstn (N.to_nat (512 * p_nr p)) d) v ->
    asks p d (RWrite (N.to_nat (p_start p)) v)
| asks_flush : p_op p = 2 -> asks p d RFlush.

(** What the driver makes of a result and the buffer [b] that came with it. *)
Inductive finds (p : pending) : ures -> list byte -> bool -> list (option sector) -> Prop :=
| finds_failed : forall b, finds p UInval b false []
| finds_data : forall b v, p_op p = 0 -> is_sectors (firstn (N.to_nat (512 * p_nr p)) b) v ->
    finds p (UResult (Z.of_N (512 * p_nr p))) b true (map Some v)
| finds_written : forall b, p_op p = 1 -> finds p (UResult (Z.of_N (512 * p_nr p))) b true []
| finds_flushed : forall b, p_op p = 2 -> finds p (UResult 0) b true [].

(** What the driver notes when it hands a request over and when it gets it back:
    reads, writes and flushes; other operations are only ever refused. *)
Inductive sent (p : pending) (d : list byte) : list (titem sector) -> Prop :=
| sent_io : forall r, asks p d r -> sent p d [TIssue (p_serial p) (p_queue p) (p_tag p) r]
| sent_other : 2 < p_op p -> sent p d [].
Inductive got (p : pending) (rs : ures) (b : list byte) : list (titem sector) -> Prop :=
| got_io : forall ok data, p_op p <= 2 -> finds p rs b ok data ->
    got p rs b [TDone (p_serial p) (p_queue p) (p_tag p) ok data]
| got_other : 2 < p_op p -> rs = UInval -> got p rs b [].

(** What has been completed on queue [q]. *)
Definition returned (u : ust) (q : nat) : list (nat * ures * list byte) := h_done (u_queue u q).

(** The queue whose loop makes this step. *)
Definition loop_of (e : uevent) : option nat :=
  match e with UEnqueue q | UPoll _ q _ _ _ | UStop q => Some q | _ => None end.

(** The driver watches one event, which took the backend from [u] to [u']: from the
    requests it waits for to those it waits for then, and what it notes down. *)
Inductive watch (u : ust) (e : uevent) (u' : ust) : list pending -> list pending -> list (titem sector) -> Prop :=
| w_taken : forall q tag d fl st nr last n P t,
    e = UHandle q tag d fl st nr last n ->
    returned u' q = returned u q ->
    sent (mk_pending q tag n (N.land fl 255) st nr) d t ->
    watch u e u' P (mk_pending q tag n (N.land fl 255) st nr :: P) t
| w_refused : forall q tag d fl st nr last n P t rs b t',
    e = UHandle q tag d fl st nr last n ->
    returned u' q = returned u q ++ [(tag, rs, b)] ->
    sent (mk_pending q tag n (N.land fl 255) st nr) d t ->
    got (mk_pending q tag n (N.land fl 255) st nr) rs b t' ->
    watch u e u' P P (t ++ t')
| w_quiet : forall q P,
    loop_of e = Some q -> returned u' q = returned u q -> watch u e u' P P []
| w_answer : forall q p rs b P1 P2 t,
    loop_of e = Some q -> returned u' q = returned u q ++ [(p_tag p, rs, b)] -> p_queue p = q ->
    got p rs b t -> watch u e u' (P1 ++ p :: P2) (P1 ++ P2) t
| w_crash : forall P, e = UCrash -> watch u e u' P [] [TCrash].

(** What the kernel driver keeps to, for a disk of [size] sectors, [depth] tags per
    queue and buffers of [max] bytes: a tag is not used again before it came back,
    reads and writes are inside the disk, and a write fits its buffer.  [notes]:
    what it noted so far; a serial is not used twice (0 stands for the initial
    contents). *)
Definition driver_ok (max : N) (depth size : nat) (P : list pending) (notes : list (titem sector)) (e : uevent) : Prop :=
  match e with
  | UHandle q tag d fl st nr _ n =>
    (tag < depth)%nat /\ N.of_nat (length d) = max /\
    (forall p, In p P -> p_queue p = q -> p_tag p = tag -> False) /\
    n <> 0%nat /\ (forall q' id r, ~ In (TIssue n q' id r) notes) /\
    (N.land fl 255 <= 1 -> st + nr <= N.of_nat size) /\
    (N.land fl 255 = 1 -> 512 * nr <= max)
  | _ => True
  end.

(** A run of the backend under such a driver.  [tr]: what passed between the handlers
    and the device; [ktr]: what the driver noted down. *)
Inductive session (max : N) (depth size : nat) : ust -> list pending -> list (titem sector) -> list (titem sector) -> Prop :=
| s_start : session max depth size (uinit max depth) [] [] []
| s_event : forall u P tr ktr e u' t P' w,
    session max depth size u P tr ktr ->
    driver_ok max depth size P ktr e ->
    ustep max depth u e = Ok (u', t) ->
    watch u e u' P P' w ->
    session max depth size u' P' (tr ++ t) (ktr ++ w).
