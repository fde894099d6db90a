(** Model of the lazy block device: the guest-facing queues (device.rs), the
    shared stripe states (metadata/shared_state.rs), the background worker
    (bgworker.rs) with its stripe fetcher (stripe_fetcher.rs) and metadata
    flusher (metadata_flusher.rs), the stripe source, the base (target) device
    and the metadata device.  All paths are under /repo/src/block_device/bdev_lazy
    unless said otherwise.

    Granularity.  A guest-side method (add_read, add_write, add_flush, one
    iteration of the loop of process_queued_rw_requests, taking the finished
    requests) is one step; the worker's methods are split into one step per
    request or completion handled, so that guest steps interleave with every
    part of BgWorker::update.  The order in which
    the code runs these steps is one of the orders the model allows.
    Atomics are modelled as sequentially consistent.

    Devices.  An operation is in flight from the moment it is added to a channel
    until its completion is delivered by poll; sectors are applied or sampled one
    at a time in between (see DiskSpec.v for the medium).  A failed submission
    drops the operations added for it; in the micro-step model this is the same as
    their completing with failure without having been applied.

    A panic in any thread stops the whole model until the next crash/restart. *)
From Coq Require Import List Arith NArith Bool.
Import ListNotations.
From Verif Require Import Base DiskSpec LazyState MetadataModel.

(** stripe_fetcher.rs:15-16, metadata_flusher.rs:13. *)
Definition MAX_CONCURRENT_FETCHES : nat := 16.
Definition MAX_FETCH_RETRIES : nat := 3.
Definition MAX_CONCURRENT_CHANGES : nat := 16.

Definition has_flag (f h : N) : bool := negb (N.land h f =? 0)%N.

(** Static parameters of a device.
    [ssc]: stripe size in sectors (1 << stripe_sector_count_shift);
    [nst]: number of stripe headers in the metadata;
    [hps]: stripe headers per metadata sector (508 in the code);
    [target]: sectors of the base device; [src]: sectors of the stripe source;
    [full_stripes]: the source always delivers whole stripes (archive and remote
    sources) rather than only the sectors below [src] (raw image);
    [image]: the contents of the source; [blank]: what fresh buffers contain;
    [track]: track_written; [has_image]: the image is read directly for reads of
    one unfetched stripe (copy_on_read off with a raw image, see
    backends/common/mod.rs:203-211); [autofetch]. *)
Record cfg (V : Type) := mk_cfg {
  ssc : nat; nst : nat; hps : nat; target : nat; src : nat;
  full_stripes : bool; image : nat -> V; blank : V;
  track : bool; has_image : bool; autofetch : bool }.
Arguments ssc {V}. Arguments nst {V}. Arguments hps {V}. Arguments target {V}. Arguments src {V}.
Arguments full_stripes {V}. Arguments image {V}. Arguments blank {V}. Arguments track {V}.
Arguments has_image {V}. Arguments autofetch {V}. Arguments mk_cfg {V}.

Inductive event (V : Type) :=
(* guest side *)
| EAdd (c id : nat) (r : req V)       (* IoChannel::add_read / add_write / add_flush on queue c *)
| EFront (c : nat)                    (* one iteration of process_queued_rw_requests *)
| ETakeFinished (c : nat)             (* poll: report finished_requests *)
| EDone (n : nat) (ok : bool)         (* poll: a completion of the base or image channel *)
(* the devices *)
| EApply (n i : nat)                  (* sector i of write n reaches the base device *)
| ESample (n i : nat)                 (* sector i of read n is sampled *)
| ESrcScribble (n i : nat) (v : V)    (* the source stores something in the buffer of request n *)
| EMApply (n : nat)                   (* metadata write n reaches the metadata device *)
(* the background worker *)
| EWRecv                              (* receive one request *)
| EWShutdown                          (* the shutdown request is received *)
| EWAutofetch                         (* StripeFetcher::update_autofetch *)
| EWStartFetch (accept : bool)        (* one iteration of start_fetches *)
| EWSrcDone (n : nat) (ok : bool)     (* a completion of the source *)
| EWTakeFinished                      (* BgWorker::update, finished fetches *)
| EWStartWrite                        (* one iteration of start_writes *)
| EWMetaDone (n : nat) (ok : bool)    (* a completion of the metadata channel *)
| EWDisconnect                        (* disconnect_from_source_if_all_fetched *)
(* crash and restart *)
| ECrash (pickb pickm : nat -> nat).
Arguments EAdd {V}. Arguments EFront {V}. Arguments ETakeFinished {V}. Arguments EDone {V}.
Arguments EApply {V}. Arguments ESample {V}. Arguments ESrcScribble {V}. Arguments EMApply {V}.
Arguments EWRecv {V}. Arguments EWShutdown {V}. Arguments EWAutofetch {V}. Arguments EWStartFetch {V}.
Arguments EWSrcDone {V}. Arguments EWTakeFinished {V}. Arguments EWStartWrite {V}.
Arguments EWMetaDone {V}. Arguments EWDisconnect {V}. Arguments ECrash {V}.

Section Lazy.
Context {V : Type}.
Variable c_ : cfg V.

Notation st_ := (state V).

(** ** Shared state (metadata/shared_state.rs) *)

(** shared_state.rs:63-66 stripe_fetched_if_needed (on one loaded state). *)
Definition released (f : fetch_state) : bool :=
  match f with Fetched | NoSource => true | NotFetched | Failed => false end.

(** shared_state.rs:28-44, the state computed for one header. *)
Definition initial_fetch_state (h : N) : fetch_state :=
  if has_flag FLAG_HAS_SOURCE h
  then (if has_flag FLAG_FETCHED h then Fetched else NotFetched)
  else NoSource.

(** shared_state.rs:81-91 set_stripe_header: swap the fetch state and count it,
    then the write state. *)
Definition set_stripe_header (st : nat) (h : N) (s : st_) : st_ :=
  if st <? nst c_ then
    let s1 :=
      if has_flag FLAG_FETCHED h then
        let prev := shf s st in
        let s0 := set_shf (upd (shf s) st Fetched) s in
        if released prev then s0 else set_cntF (S (cntF s0)) s0
      else s in
    if has_flag FLAG_WRITTEN h then set_shw (upd (shw s1) st true) s1 else s1
  else set_panic true s.

(** ** The guest side (device.rs) *)

Inductive fstatus := SPending | SComplete | SFailed | SPanic.

(** device.rs:74-91 request_stripes_fetch_status; [SPanic] is the out-of-bounds
    index of shared_state.rs:78. *)
Fixpoint fetch_status (s : st_) (sts : list nat) : fstatus :=
  match sts with
  | [] => SComplete
  | st :: r =>
    if st <? nst c_ then
      match shf s st with
      | Fetched | NoSource => fetch_status s r
      | NotFetched => SPending
      | Failed => SFailed
      end
    else SPanic
  end.

(** device.rs:93-100 request_stripes_written; [None] is an out-of-bounds index. *)
Fixpoint stripes_written (s : st_) (sts : list nat) : option bool :=
  match sts with
  | [] => Some true
  | st :: r =>
    if st <? nst c_ then (if shw s st then stripes_written s r else Some false) else None
  end.

(** device.rs:204-207 and 253-256: the inclusive stripe range
    stripe_id_first..=stripe_id_last of a request.  For off = len = 0 the
    expression [sector_offset + sector_count - 1] wraps around in a release build
    (Cargo.toml sets no overflow checks): the range then runs from stripe 0 past
    the last stripe, so that scanning it ends at index [nst] at the latest (in a
    debug build the subtraction itself panics). *)
Definition stripe_first (off : nat) : nat := off / ssc c_.
Definition stripe_last (off len : nat) : nat :=
  if off + len =? 0 then nst c_ else (off + len - 1) / ssc c_.
Definition stripes_of (off len : nat) : list nat :=
  seq (stripe_first off) (S (stripe_last off len) - stripe_first off).

(** The extent of a read or write request. *)
Definition req_extent (r : req V) : nat * nat :=
  match r with
  | RRead off len => (off, len)
  | RWrite off data => (off, length data)
  | RFlush => (0, 0)
  end.
Definition req_stripes (r : req V) : list nat :=
  stripes_of (fst (req_extent r)) (snd (req_extent r)).
Definition is_write (r : req V) : bool := match r with RWrite _ _ => true | _ => false end.

Inductive sendres := SendOk | SendErr | SendPanic.

(** device.rs:102-116 start_stripe_fetches.  Sending fails when the worker has
    stopped and dropped the receiver. *)
Fixpoint start_stripe_fetches (c : nat) (sts : list nat) (s : st_) : st_ * sendres :=
  match sts with
  | [] => (s, SendOk)
  | st :: r =>
    if st <? nst c_ then
      if negb (released (shf s st)) && negb (chreq s c st) then
        if wdone s then (s, SendErr)
        else start_stripe_fetches c r
               (set_chreq (upd (chreq s) c (upd (chreq s c) st true))
                 (set_mq (mq s ++ [BFetch st]) s))
      else start_stripe_fetches c r s
    else (s, SendPanic)
  end.

(** device.rs:118-129 start_stripe_set_written. *)
Fixpoint start_stripe_set_written (sts : list nat) (s : st_) : st_ * sendres :=
  match sts with
  | [] => (s, SendOk)
  | st :: r =>
    if st <? nst c_ then
      if shw s st then start_stripe_set_written r s
      else if wdone s then (s, SendErr)
      else start_stripe_set_written r (set_mq (mq s ++ [BSetWritten st]) s)
    else (s, SendPanic)
  end.

(** A request handed to the base (or image) channel: base.add_read etc. *)
Definition start_op_kind (r : req V) (s : st_) : opkind V :=
  match r with
  | RRead off len => KRead off len (fun _ => None)
  | RWrite off data => KWrite off (length data) (WData data) (fun _ => false)
  | RFlush => KFlush (bdone s)
  end.
Definition issue (n c id : nat) (dv : device) (r : req V) (s : st_) : st_ :=
  set_ops (upd (ops s) n (Some (mk_op (OGuest c id) dv (start_op_kind r s)))) s.

(** finished_requests.push((id, false)). *)
Definition fail_req (c n id : nat) (s : st_) : st_ :=
  set_chfin (upd (chfin s) c (chfin s c ++ [(n, id)])) s.

(** queued_rw_requests.push_back(request). *)
Definition enqueue (c : nat) (r : rwreq V) (s : st_) : st_ :=
  set_chq (upd (chq s) c (chq s c ++ [r])) s.

(** device.rs:197-244 add_read. *)
Definition add_read (n c id off len : nat) (s : st_) : st_ :=
  let r := RRead off len in
  let sts := stripes_of off len in
  match fetch_status s sts with
  | SPanic => set_panic true s
  | SComplete => issue n c id DBase r s
  | SFailed => fail_req c n id s
  | SPending =>
    if (stripe_first off =? stripe_last off len) && has_image c_
    then issue n c id DImage r s
    else
      match start_stripe_fetches c sts s with
      | (s1, SendOk) => enqueue c (mk_rwreq n id r) s1
      | (s1, SendErr) => fail_req c n id s1
      | (s1, SendPanic) => set_panic true s1
      end
  end.

(** device.rs:276-296: the part of add_write after the fetch status test. *)
Definition queue_write (n c id off : nat) (data : list V) (s : st_) : st_ :=
  let sts := stripes_of off (length data) in
  match start_stripe_fetches c sts s with
  | (s1, SendPanic) => set_panic true s1
  | (s1, SendErr) => fail_req c n id s1
  | (s1, SendOk) =>
    if track c_ then
      match start_stripe_set_written sts s1 with
      | (s2, SendPanic) => set_panic true s2
      | (s2, SendErr) => fail_req c n id s2
      | (s2, SendOk) => enqueue c (mk_rwreq n id (RWrite off data)) s2
      end
    else enqueue c (mk_rwreq n id (RWrite off data)) s1
  end.

(** device.rs:246-297 add_write. *)
Definition add_write (n c id off : nat) (data : list V) (s : st_) : st_ :=
  let sts := stripes_of off (length data) in
  match fetch_status s sts with
  | SPanic => set_panic true s
  | SFailed => fail_req c n id s
  | SPending => queue_write n c id off data s
  | SComplete =>
    if track c_ then
      match stripes_written s sts with
      | None => set_panic true s
      | Some true => issue n c id DBase (RWrite off data) s
      | Some false => queue_write n c id off data s
      end
    else issue n c id DBase (RWrite off data) s
  end.

(** device.rs:196-301: one guest request, with a fresh serial. *)
Definition add_req (c id : nat) (r : req V) (s0 : st_) : st_ :=
  let n := next s0 in
  let s := set_next (S n) s0 in
  match r with
  | RRead off len => add_read n c id off len s
  | RWrite off data => add_write n c id off data s
  | RFlush => issue n c id DBase RFlush s
  end.

(** device.rs:153-155. *)
Definition remove_all (f : nat -> bool) (l : list nat) : nat -> bool :=
  fun x => if existsb (Nat.eqb x) l then false else f x.

(** device.rs:134-179: one iteration of the loop of process_queued_rw_requests
    (no effect where the code breaks out of the loop). *)
Definition process_front (c : nat) (s : st_) : st_ :=
  match chq s c with
  | [] => s
  | r :: q =>
    let sts := req_stripes (rq_req r) in
    let go := set_chreq (upd (chreq s) c (remove_all (chreq s c) sts))
                (issue (rq_serial r) c (rq_id r) DBase (rq_req r) (set_chq (upd (chq s) c q) s)) in
    match fetch_status s sts with
    | SPanic => set_panic true s
    | SPending => s
    | SFailed => fail_req c (rq_serial r) (rq_id r) (set_chq (upd (chq s) c q) s)
    | SComplete =>
      if track c_ && is_write (rq_req r) then
        match stripes_written s sts with
        | None => set_panic true s
        | Some false => s
        | Some true => go
        end
      else go
    end
  end.

(** device.rs:313: the finished (failed) requests are reported. *)
Definition take_finished (c : nat) (s : st_) : st_ * list (titem V) :=
  (set_chfin (upd (chfin s) c []) s,
   map (fun p => TDone (fst p) c (snd p) false []) (chfin s c)).

(** ** Stripe fetcher (stripe_fetcher.rs) *)

(** utils/aligned_buffer_pool.rs:39-60 return_buffer on the fetch pool; the
    pointer-equality assertion always holds since buffers are named by their
    index. *)
Definition return_fbuf (b : nat) (s : st_) : st_ :=
  if (b <? MAX_CONCURRENT_FETCHES) && fuse s b
  then set_fuse (upd (fuse s) b false) (set_favail (favail s ++ [b]) s)
  else set_panic true s.

(** stripe_fetcher.rs:272-301 fetch_completed. *)
Definition fetch_completed (st : nat) (ok : bool) (s0 : st_) : st_ :=
  let s := match fbuf s0 st with
           | Some b => return_fbuf b (set_fbuf (upd (fbuf s0) st None) s0)
           | None => s0
           end in
  if ok then
    set_ffin (ffin s ++ [(st, true)])
      (set_fret (upd (fret s) st 0) (set_fsts (upd (fsts s) st (Some FFetched)) s))
  else if fret s st <? MAX_FETCH_RETRIES then
    set_fsts (upd (fsts s) st (Some FQueued))
      (set_fq (fq s ++ [st]) (set_fret (upd (fret s) st (S (fret s st))) s))
  else if st <? nst c_ then
    set_ffin (ffin s ++ [(st, false)])
      (set_fret (upd (fret s) st 0)
        (set_fsts (upd (fsts s) st None)
          (* shared_state.rs:93-95 set_stripe_failed *)
          (set_shf (upd (shf s) st Failed) s)))
  else set_panic true s.

(** stripe_fetcher.rs:111-128 handle_fetch_request. *)
Definition handle_fetch_request (st : nat) (s : st_) : st_ :=
  if st <? nst c_ then
    if released (shf s st) then s
    else match fsts s st with
         | Some _ => s
         | None => set_fsts (upd (fsts s) st (Some FQueued)) (set_fq (fq s ++ [st]) s)
         end
  else set_panic true s.

(** stripe_fetcher.rs:165-171 update_autofetch. *)
Definition update_autofetch (s : st_) : st_ :=
  if autofetch c_ then
    match fq s, fauto s with
    | [], st :: r => handle_fetch_request st (set_fauto r s)
    | _, _ => s
    end
  else s.

(** Does the source accept a request for this stripe?  stripe_source/bdev.rs:23-43
    rejects stripes that start beyond its end (all of them once it has been
    replaced by the empty null device, stripe_fetcher.rs:143-147); [accept] is
    the result of the rest of the submission and of other kinds of source. *)
Definition source_accepts (accept : bool) (st : nat) (s : st_) : bool :=
  accept && slive s && (st * ssc c_ <? src c_).

(** stripe_fetcher.rs:174-186: one iteration of start_fetches. *)
Definition start_fetch (accept : bool) (s : st_) : st_ :=
  match fq s, favail s with
  | st :: q, b :: av =>
    let s1 := set_fbuf (upd (fbuf s) st (Some b))
                (set_fuse (upd (fuse s) b true) (set_favail av (set_fq q s))) in
    if source_accepts accept st s1 then
      let n := next s1 in
      set_fsts (upd (fsts s1) st (Some FFetching))
        (set_sops (upd (sops s1) n (Some (st, b))) (set_next (S n) s1))
    else fetch_completed st false s1
  | _, _ => s
  end.

(** The buffer a successful source request leaves: stripe_source/bdev.rs:31-40
    reads only the sectors below the end of a raw image; other sources fill the
    whole stripe. *)
Definition filled (st : nat) (old : nat -> V) : nat -> V :=
  fun i => if (i <? ssc c_) && (full_stripes c_ || (st * ssc c_ + i <? src c_))
           then image c_ (st * ssc c_ + i) else old i.

(** stripe_fetcher.rs:240-259 start_write (adding the operation). *)
Definition start_write (st b : nat) (s : st_) : st_ :=
  let off := st * ssc c_ in
  if target c_ <? off then set_panic true s
  else
    let len := Nat.min (ssc c_) (target c_ - off) in
    let n := next s in
    set_ops (upd (ops s) n (Some (mk_op (OFetch st) DBase (KWrite off len (WBuf b) (fun _ => false)))))
      (set_next (S n) s).

(** stripe_fetcher.rs:198-210: one completion of the source. *)
Definition src_done (n : nat) (ok : bool) (s0 : st_) : st_ :=
  match sops s0 n with
  | None => s0
  | Some (st, b) =>
    let s1 := set_sops (upd (sops s0) n None) s0 in
    let s := if ok then set_bufs (upd (bufs s1) b (filled st (bufs s1 b))) s1 else s1 in
    match fbuf s st with
    | None => s
    | Some b' => if ok then start_write st b' s else fetch_completed st false s
    end
  end.

(** stripe_fetcher.rs:261-270 start_flush (adding the operation). *)
Definition start_flush (st : nat) (s : st_) : st_ :=
  let n := next s in
  set_ops (upd (ops s) n (Some (mk_op (OFetch st) DBase (KFlush (bdone s))))) (set_next (S n) s).

(** stripe_fetcher.rs:214-237: one completion of the target channel. *)
Definition tgt_done (st : nat) (ok : bool) (s : st_) : st_ :=
  if ok then
    match fsts s st with
    | Some FFetching => let s1 := start_flush st s in set_fsts (upd (fsts s1) st (Some FFlushing)) s1
    | Some FFlushing => fetch_completed st true s
    | _ => s
    end
  else fetch_completed st false s.

(** stripe_fetcher.rs:103-109 busy: the source and target channels are busy while
    they have operations in flight. *)
Definition source_busy (s : st_) : bool := existsb (fun n => is_some (sops s n)) (seq 0 (next s)).
Definition is_fetch_op (o : option (op V)) : bool :=
  match o with Some (mk_op (OFetch _) _ _) => true | _ => false end.
Definition target_busy (s : st_) : bool := existsb (fun n => is_fetch_op (ops s n)) (seq 0 (next s)).
Definition is_nil {A} (l : list A) : bool := match l with [] => true | _ => false end.
Definition fetcher_busy (s : st_) : bool :=
  negb (is_nil (fq s)) || source_busy s || target_busy s || negb (is_nil (ffin s))
  || negb (is_nil (fauto s)).

(** stripe_fetcher.rs:136-154 disconnect_from_source_if_all_fetched. *)
Definition disconnect (s : st_) : st_ :=
  if negb (fdisc s) && negb (fetcher_busy s) && (cntS s =? cntF s)
  then set_fdisc true (set_slive false s) else s.

(** bgworker.rs:101-107. *)
Definition take_finished_fetches (s : st_) : st_ :=
  set_mqueue (mqueue s ++ map (fun p => (fst p, SetFetched)) (filter snd (ffin s))) (set_ffin [] s).

(** ** Metadata flusher (metadata_flusher.rs) *)

(** types.rs stripe_id_to_group; the metadata sector of a group is 1 + group
    (C04), so groups are used to name sectors. *)
Definition group_of (st : nat) : nat := st / hps c_.

(** utils/aligned_buffer_pool.rs:39-60 return_buffer on the metadata pool. *)
Definition return_mbuf (b : nat) (s : st_) : st_ :=
  if (b <? MAX_CONCURRENT_CHANGES) && muse s b
  then set_muse (upd (muse s) b false) (set_mavail (mavail s ++ [b]) s)
  else set_panic true s.

Definition mask_of (k : mkind) : N :=
  match k with SetFetched => FLAG_FETCHED | SetWritten => FLAG_WRITTEN end.

Definition remove_sector (g : nat) (l : list nat) : list nat :=
  filter (fun x => negb (x =? g)) l.

(** metadata_flusher.rs:184-228: one iteration of start_writes.  The buffer
    receives the header bytes of the whole sector (lines 207-211; at the byte level
    this is C04); it is recorded here as a copy of the header array, of which only
    the stripes of this group are later used. *)
Definition start_meta_write (s : st_) : st_ :=
  match mqueue s, mavail s with
  | (st, k) :: q, b :: av =>
    let g := group_of st in
    if existsb (Nat.eqb g) (msec s) then s
    else
      let s1 := set_mqueue q s in
      if st <? nst c_ then
        if has_flag (mask_of k) (hdrs s1 st) then s1
        else
          let h := N.lor (hdrs s1 st) (mask_of k) in
          let s2 := set_hdrs (upd (hdrs s1) st h) (set_muse (upd (muse s1) b true) (set_mavail av s1)) in
          let s3 := set_mbufs (upd (mbufs s2) b (hdrs s2)) s2 in
          let n := next s3 in
          let s4 := set_mops (upd (mops s3) n (Some (MWrite st g b false))) (set_next (S n) s3) in
          set_mupd (upd (mupd s4) st (Some (mk_hupd b MWriting h (mask_of k) g)))
            (set_msec (g :: msec s4) s4)
      else set_panic true s1
  | _, _ => s
  end.

(** metadata_flusher.rs:130-145 (and 108-118 cleanup_failed_submission, which
    has the same effect on an entry in the matching stage): an update failed. *)
Definition meta_failed (st : nat) (u : hupd) (s : st_) : st_ :=
  let s1 := set_hdrs (upd (hdrs s) st (N.ldiff (hdrs s st) (u_mask u))) s in
  let s2 := match u_stage u with MWriting => return_mbuf (u_buf u) s1 | MFlushing => s1 end in
  set_mupd (upd (mupd s2) st None) (set_msec (remove_sector (u_sector u) (msec s2)) s2).

(** metadata_flusher.rs:147-152: the write completed, a flush is added. *)
Definition meta_written (st : nat) (u : hupd) (s : st_) : st_ :=
  let s1 := return_mbuf (u_buf u) s in
  let n := next s1 in
  let s2 := set_mops (upd (mops s1) n (Some (MFlush st (mdone s1)))) (set_next (S n) s1) in
  set_mupd (upd (mupd s2) st (Some (mk_hupd (u_buf u) MFlushing (u_header u) (u_mask u) (u_sector u)))) s2.

(** metadata_flusher.rs:153-156 and 161-165: the flush completed. *)
Definition meta_flushed (st : nat) (u : hupd) (s : st_) : st_ :=
  let s1 := set_msec (remove_sector (u_sector u) (msec s)) s in
  set_stripe_header st (u_header u) (set_mupd (upd (mupd s1) st None) s1).

(** metadata_flusher.rs:124-165: one completion of the metadata channel is handled. *)
Definition meta_completion (st : nat) (ok : bool) (s : st_) : st_ :=
  match mupd s st with
  | None => s
  | Some u =>
    if ok then match u_stage u with MWriting => meta_written st u s | MFlushing => meta_flushed st u s end
    else meta_failed st u s
  end.

(** The metadata device completes operation [n] (which it can do successfully
    only if the write has reached the medium). *)
Definition meta_done (n : nat) (ok : bool) (s : st_) : st_ :=
  match mops s n with
  | None => s
  | Some (MWrite st g b applied) =>
    if ok && negb applied then s
    else
      let s1 := set_mops (upd (mops s) n None) s in
      meta_completion st ok (if ok then set_mdone (upd (mdone s1) n true) s1 else s1)
  | Some (MFlush st snap) =>
    let s1 := set_mops (upd (mops s) n None) s in
    meta_completion st ok (if ok then set_mh (fun g => trim snap (mh s1 g)) s1 else s1)
  end.

(** A metadata write reaches the medium: the buffer is read at this moment. *)
Definition meta_apply (n : nat) (s : st_) : st_ :=
  match mops s n with
  | Some (MWrite st g b false) =>
    set_mops (upd (mops s) n (Some (MWrite st g b true)))
      (set_mh (upd (mh s) g ((n, mbufs s b) :: mh s g)) s)
  | _ => s
  end.

(** ** Worker request channel (bgworker.rs:59-97) *)
Definition worker_recv (s : st_) : st_ :=
  match mq s with
  | [] => s
  | BFetch st :: r => handle_fetch_request st (set_mq r s)
  | BSetWritten st :: r =>
    let s1 := set_mq r s in set_mqueue (mqueue s1 ++ [(st, SetWritten)]) s1
  end.

(** ** The base and image devices *)

(** The data of a write for its i-th sector, read at this moment. *)
Definition write_value (d : wdata V) (i : nat) (s : st_) : option V :=
  match d with WData l => nth_error l i | WBuf b => Some (bufs s b i) end.

Definition base_apply (n i : nat) (s : st_) : st_ :=
  match ops s n with
  | Some (mk_op o DBase (KWrite off len d applied)) =>
    match write_value d i s with
    | Some v =>
      if (i <? len) && (off + i <? target c_) && negb (applied i) then
        set_ops (upd (ops s) n (Some (mk_op o DBase (KWrite off len d (upd applied i true)))))
          (set_bh (upd (bh s) (off + i) ((n, v) :: bh s (off + i))) s)
      else s
    | None => s
    end
  | _ => s
  end.

Definition dev_size (d : device) : nat := match d with DBase => target c_ | DImage => src c_ end.
Definition dev_cur (d : device) (x : nat) (s : st_) : option V :=
  match d with DBase => cur (bh s x) | DImage => Some (image c_ x) end.

Definition read_sample (n i : nat) (s : st_) : st_ :=
  match ops s n with
  | Some (mk_op o d (KRead off len got)) =>
    if (i <? len) && (off + i <? dev_size d) then
      set_ops (upd (ops s) n (Some (mk_op o d (KRead off len (upd got i (dev_cur d (off + i) s)))))) s
    else s
  | _ => s
  end.

(** Can operation [k] on device [d] complete successfully now? *)
Definition completable (d : device) (k : opkind V) : bool :=
  match k with
  | KWrite off len _ applied => in_range_all (dev_size d) off len applied
  | KRead off len got => in_range_all (dev_size d) off len (fun i => is_some (got i))
  | KFlush _ => true
  end.

(** Effect of a completed operation on the medium. *)
Definition complete_medium (n : nat) (k : opkind V) (s : st_) : st_ :=
  match k with
  | KWrite _ _ _ _ => set_bdone (upd (bdone s) n true) s
  | KRead _ _ _ => s
  | KFlush snap => set_bh (fun x => trim snap (bh s x)) s
  end.

Definition op_data (k : opkind V) : list (option V) :=
  match k with KRead off len got => read_data len got | _ => [] end.

(** device.rs:314-317 (guest queues) and stripe_fetcher.rs:214 (the fetcher's
    channel): a completion is delivered. *)
Definition op_done (n : nat) (ok : bool) (s : st_) : st_ * list (titem V) :=
  match ops s n with
  | None => (s, [])
  | Some (mk_op o d k) =>
    if ok && negb (completable d k) then (s, [])
    else
      let s1 := set_ops (upd (ops s) n None) s in
      let s2 := if ok then complete_medium n k s1 else s1 in
      match o with
      | OGuest c id => (s2, [TDone n c id ok (if ok then op_data k else [])])
      | OFetch st => if wdone s then (s, []) else (tgt_done st ok s2, [])
      end
  end.

Definition scribble (n i : nat) (v : V) (s : st_) : st_ :=
  match sops s n with
  | Some (_, b) => set_bufs (upd (bufs s) b (upd (bufs s b) i v)) s
  | None => s
  end.

(** ** Startup *)

(** types.rs:345-349 has_fetched_all_stripes, on a header array. *)
Definition all_fetched (h : nat -> N) : bool :=
  forallb (fun st => negb (has_flag FLAG_HAS_SOURCE (h st)) || has_flag FLAG_FETCHED (h st))
          (seq 0 (nst c_)).

Definition count (p : nat -> bool) (k : nat) : nat := length (filter p (seq 0 k)).

(** The headers found on the metadata device. *)
Definition loaded_headers (mhist : nat -> list (nat * (nat -> N))) (st : nat) : N :=
  match mhist (group_of st) with e :: _ => snd e st | [] => 0%N end.

(** The device after startup, given the two media: load the headers from the
    metadata device (types.rs, C02), build the shared state
    (shared_state.rs:25-53), the source (stripe_source/builder.rs:42-95), the
    fetcher (stripe_fetcher.rs:46-101), the flusher (metadata_flusher.rs:54-83) and
    empty queues. *)
Definition boot (n : nat) (hist : nat -> list (nat * V)) (mhist : nat -> list (nat * (nat -> N)))
    (bd md : nat -> bool) : st_ :=
  let h := loaded_headers mhist in
  let live := negb (all_fetched h) in
  let nsrc := if live then src c_ else 0 in
  mk_state (fun _ => []) (fun _ => []) (fun _ _ => false)
    (fun st => if st <? nst c_ then initial_fetch_state (h st) else NoSource)
    (fun st => (st <? nst c_) && has_flag FLAG_WRITTEN (h st))
    (count (fun st => has_flag FLAG_FETCHED (h st)) (nst c_))
    (count (fun st => has_flag FLAG_HAS_SOURCE (h st)) (nst c_))
    [] false
    [] (if autofetch c_ then seq 0 (div_ceil nsrc (ssc c_)) else [])
    (fun _ => None) (fun _ => 0) (fun _ => None) [] false
    (seq 0 MAX_CONCURRENT_FETCHES) (fun _ => false) (fun _ _ => blank c_)
    h (fun _ => None) [] [] (seq 0 MAX_CONCURRENT_CHANGES) (fun _ => false) (fun _ _ => 0%N)
    (fun _ => None) n hist bd (fun _ => None) (fun _ => None) mhist md
    live false.

(** First start on a base device with contents [base] and metadata headers [h]. *)
Definition init (base : nat -> V) (h : nat -> N) : st_ :=
  boot 1 (fun x => [(0, base x)]) (fun _ => [(0, h)]) (fun n => n =? 0) (fun n => n =? 0).

Definition crash (pickb pickm : nat -> nat) (s : st_) : st_ :=
  boot (next s) (fun x => crashed (bh s x) (pickb x)) (fun g => crashed (mh s g) (pickm g))
       (bdone s) (mdone s).

(** ** One step *)
Definition worker (f : st_ -> st_) (s : st_) : st_ := if wdone s then s else f s.

Definition step (s : st_) (e : event V) : st_ * list (titem V) :=
  match e with
  | ECrash pb pm => (crash pb pm s, [TCrash])
  | _ =>
    if panic s then (s, [])
    else
      match e with
      | EAdd c id r => (add_req c id r s, [TIssue (next s) c id r])
      | EFront c => (process_front c s, [])
      | ETakeFinished c => take_finished c s
      | EDone n ok => op_done n ok s
      | EApply n i => (base_apply n i s, [])
      | ESample n i => (read_sample n i s, [])
      | ESrcScribble n i v => (scribble n i v s, [])
      | EMApply n => (meta_apply n s, [])
      | EWRecv => (worker worker_recv s, [])
      | EWShutdown => (set_wdone true s, [])
      | EWAutofetch => (worker update_autofetch s, [])
      | EWStartFetch accept => (worker (start_fetch accept) s, [])
      | EWSrcDone n ok => (worker (src_done n ok) s, [])
      | EWTakeFinished => (worker take_finished_fetches s, [])
      | EWStartWrite => (worker start_meta_write s, [])
      | EWMetaDone n ok => (worker (meta_done n ok) s, [])
      | EWDisconnect => (worker disconnect s, [])
      | ECrash _ _ => (s, [])
      end
  end.

Fixpoint run (s : st_) (es : list (event V)) : st_ * list (titem V) :=
  match es with
  | [] => (s, [])
  | e :: r =>
    let (s1, t1) := step s e in
    let (s2, t2) := run s1 r in (s2, t1 ++ t2)
  end.

End Lazy.
