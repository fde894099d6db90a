(** What the guest sees of its disk, without reference to slots, buffers or
    channels: the requests in its descriptor chains, and, when a chain comes back
    on a used ring, the status byte and the data in its own memory. *)
From Coq Require Import List NArith Arith Bool.
From Verif Require Import Base DiskSpec VhostModel VhostSpec GuestModel.
Import ListNotations.
Local Open Scope N_scope.

(** [v] is the byte string [l] cut into sectors of 512 bytes. *)
Definition is_sectors (l : list byte) (v : list sector) : Prop :=
  concat v = l /\ Forall (fun s => N.of_nat (length s) = 512) v.

(** A request the driver waits for: queue, head index, serial, and the request as
    it stood in memory when the device took it. *)
Record pending := mk_pending { p_queue : nat; p_head : N; p_serial : nat; p_rq : request }.

(** What a block request asks of a disk. *)
Inductive asks (m : gmem) (rq : request) : req sector -> Prop :=
| asks_read : forall len, rq_type rq = TIn -> total_len (rq_data rq) = 512 * len ->
    asks m rq (RRead (N.to_nat (rq_sector rq)) (N.to_nat len))
| asks_write : forall v, rq_type rq = TOut -> is_sectors (seg_contents m (rq_data rq)) v ->
    asks m rq (RWrite (N.to_nat (rq_sector rq)) v)
| asks_flush : rq_type rq = TFlush -> asks m rq RFlush.

Definition is_io (rq : request) : Prop :=
  rq_type rq = TIn \/ rq_type rq = TOut \/ rq_type rq = TFlush.

(** What the guest finds when the chain of [rq] is on the used ring. *)
Inductive finds (m : gmem) (rq : request) : bool -> list (option sector) -> Prop :=
| finds_failed : m (rq_status rq) <> 0 -> finds m rq false []
| finds_data : forall v, m (rq_status rq) = 0 -> rq_type rq = TIn ->
    is_sectors (seg_contents m (rq_data rq)) v -> finds m rq true (map Some v)
| finds_done : m (rq_status rq) = 0 -> rq_type rq <> TIn -> finds m rq true [].

(** The used ring of queue [q]. *)
Definition used_ring (g : gst) (q : nat) : list N := v_used (g_queue g q).

(** The guest watches one event, which took the backend from [g] to [g']: from the
    requests it waits for to those it waits for then, and what it notes down. *)
Inductive watch (valid : N -> bool) (g : gst) (e : gevent) (g' : gst)
  : list pending -> list pending -> list (titem sector) -> Prop :=
| w_io : forall q c n rq head datas st r P,
    e = GPop q c n ->
    block_request valid (g_mem g) c rq head datas st -> is_io rq -> asks (g_mem g) rq r ->
    watch valid g e g' P (mk_pending q (c_head c) n rq :: P) [TIssue n q (N.to_nat (c_head c)) r]
| w_other : forall q c n rq head datas st P,
    e = GPop q c n ->
    block_request valid (g_mem g) c rq head datas st -> ~ is_io rq ->
    watch valid g e g' P P []
| w_done : forall n q id okd datad h n' rq ok data P1 P2,
    e = GDone n q id okd datad ->
    used_ring g' q = used_ring g q ++ [h] ->
    finds (g_mem g') rq ok data ->
    watch valid g e g' (P1 ++ mk_pending q h n' rq :: P2) (P1 ++ P2) [TDone n' q (N.to_nat h) ok data]
| w_signal : forall q ei needs P, e = GSignal q ei needs -> watch valid g e g' P P []
| w_store : forall a b P, e = GStore a b -> watch valid g e g' P P []
| w_crash : forall m P, e = GCrash m -> watch valid g e g' P [] [TCrash].

(** What a virtio driver keeps to, for a disk of [size] sectors: chains are block
    requests; a head index is not used again before it came back; less than 4 GiB
    of data, a buffer for the device id; data buffers in guest memory holding whole
    sectors, all of them on the disk; no byte of a read given twice. *)
Definition driver_ok (valid : N -> bool) (qsize : N) (size : nat)
  (g : gst) (P : list pending) (e : gevent) : Prop :=
  match e with
  | GPop q c n =>
    c_head c < qsize /\
    (forall n' rq', ~ In (mk_pending q (c_head c) n' rq') P) /\
    exists rq head datas st, block_request valid (g_mem g) c rq head datas st /\
      total_len (rq_data rq) < 2 ^ 32 /\
      (rq_type rq = TGetId -> rq_data rq <> []) /\
      (rq_type rq = TIn \/ rq_type rq = TOut ->
         segs_valid valid (rq_data rq) /\ total_len (rq_data rq) mod 512 = 0 /\
         rq_sector rq + total_len (rq_data rq) / 512 <= N.of_nat size) /\
      (rq_type rq = TIn ->
         segs_disjoint (rq_data rq) /\ ~ in_segs (rq_status rq) (rq_data rq))
  | _ => True
  end.

(** A run of the backend under such a driver.  [tr]: what passed between the
    threads and the device; [gtr]: what the guest noted down. *)
Inductive session (valid : N -> bool) (qsize : N) (did : list byte) (nslots : nat) (bufsize : N)
  (size : nat) (m0 : gmem)
  : gst -> list pending -> list (titem sector) -> list (titem sector) -> Prop :=
| s_start : session valid qsize did nslots bufsize size m0 (ginit nslots bufsize m0) [] [] []
| s_event : forall g P tr gtr e g' t P' w,
    session valid qsize did nslots bufsize size m0 g P tr gtr ->
    driver_ok valid qsize size g P e ->
    gstep valid qsize did nslots bufsize g e = Ok (g', t) ->
    watch valid g e g' P P' w ->
    session valid qsize did nslots bufsize size m0 g' P' (tr ++ t) (gtr ++ w).
