(** GENERATED by tools/gen_lazy_state.py: the state of the lazy-device model and
    its field setters.  See LazyModel.v for the transitions.  The types mirror
    device.rs:18-50, bgworker.rs:10-22, stripe_fetcher.rs:18-43,
    metadata_flusher.rs:15-51, metadata/shared_state.rs:8-22 and
    utils/aligned_buffer_pool.rs:9-13 under src/block_device/bdev_lazy (and
    src/utils). *)
From Coq Require Import List NArith.
Import ListNotations.
From Verif Require Import DiskSpec.

(** shared_state.rs:16-19. *)
Inductive fetch_state := NotFetched | Fetched | Failed | NoSource.
(** stripe_fetcher.rs:19-24. *)
Inductive fstate := FQueued | FFetching | FFlushing | FFetched.
(** bgworker.rs:10-14 (Shutdown is an event of the model). *)
Inductive bgreq := BFetch (st : nat) | BSetWritten (st : nat).
(** metadata_flusher.rs:16-19. *)
Inductive mkind := SetFetched | SetWritten.
(** metadata_flusher.rs:28-31. *)
Inductive mstage := MWriting | MFlushing.
(** metadata_flusher.rs:33-41. *)
Record hupd := mk_hupd { u_buf : nat; u_stage : mstage; u_header : N; u_mask : N; u_sector : nat }.

(** device.rs:31-39; [rq_serial] is the ghost identity of the request, the
    request kind and data are in [rq_req]. *)
Record rwreq (V : Type) := mk_rwreq { rq_serial : nat; rq_id : nat; rq_req : req V }.
Arguments mk_rwreq {V}. Arguments rq_serial {V}. Arguments rq_id {V}. Arguments rq_req {V}.

(** An operation in flight on the base or image device. *)
Inductive owner := OGuest (c id : nat) | OFetch (st : nat).
Inductive device := DBase | DImage.
Inductive wdata (V : Type) := WData (l : list V) | WBuf (b : nat).
Arguments WData {V}. Arguments WBuf {V}.
Inductive opkind (V : Type) :=
| KWrite (off len : nat) (data : wdata V) (applied : nat -> bool)
| KRead (off len : nat) (got : nat -> option V)
| KFlush (snap : nat -> bool).
Arguments KWrite {V}. Arguments KRead {V}. Arguments KFlush {V}.
Record op (V : Type) := mk_op { o_owner : owner; o_dev : device; o_kind : opkind V }.
Arguments mk_op {V}. Arguments o_owner {V}. Arguments o_dev {V}. Arguments o_kind {V}.

(** An operation in flight on the metadata device, for a stripe id. *)
Inductive mop := MWrite (st sector buf : nat) (applied : bool) | MFlush (st : nat) (snap : nat -> bool).

Record state (V : Type) := mk_state {
  chq : nat -> list (rwreq V);  (* queued_rw_requests of each queue *)
  chfin : nat -> list (nat * nat);  (* finished_requests of each queue: (serial, id), all failed *)
  chreq : nat -> nat -> bool;  (* stripe_fetches_requested of each queue *)
  shf : nat -> fetch_state;  (* SharedMetadataState::stripe_fetch_states *)
  shw : nat -> bool;  (* SharedMetadataState::stripe_write_states *)
  cntF : nat;  (* SharedMetadataState::fetched_stripes_count *)
  cntS : nat;  (* SharedMetadataState::source_stripes_count *)
  mq : list bgreq;  (* the mpsc channel to the worker, oldest first *)
  wdone : bool;  (* BgWorker::done (worker stopped, receiver dropped) *)
  fq : list nat;  (* StripeFetcher::fetch_queue *)
  fauto : list nat;  (* StripeFetcher::autofetch_queue *)
  fsts : nat -> option fstate;  (* StripeFetcher::stripe_states *)
  fret : nat -> nat;  (* StripeFetcher::stripe_fetch_retries (absent = 0) *)
  fbuf : nat -> option nat;  (* StripeFetcher::allocated_buffers: stripe to pool index *)
  ffin : list (nat * bool);  (* StripeFetcher::finished_fetches *)
  fdisc : bool;  (* StripeFetcher::disconnected *)
  favail : list nat;  (* fetch buffer pool: available_buffers *)
  fuse : nat -> bool;  (* fetch buffer pool: in_use *)
  bufs : nat -> nat -> V;  (* contents of the fetch buffers: index, sector in buffer *)
  hdrs : nat -> N;  (* MetadataFlusher::metadata.stripe_headers, by stripe id *)
  mupd : nat -> option hupd;  (* MetadataFlusher::header_updates *)
  msec : list nat;  (* MetadataFlusher::sectors_being_updated *)
  mqueue : list (nat * mkind);  (* MetadataFlusher::queued_requests *)
  mavail : list nat;  (* metadata buffer pool: available_buffers *)
  muse : nat -> bool;  (* metadata buffer pool: in_use *)
  mbufs : nat -> nat -> N;  (* contents of the metadata buffers: buffer index, stripe id (only the ids of one sector matter) *)
  ops : nat -> option (op V);  (* operations in flight on the base and image devices, by serial *)
  next : nat;  (* next operation serial (ghost) *)
  bh : nat -> list (nat * V);  (* base device medium: per sector, values written and not yet superseded durably, newest first *)
  bdone : nat -> bool;  (* base device writes that completed successfully *)
  sops : nat -> option (nat * nat);  (* requests in flight at the stripe source: stripe, buffer *)
  mops : nat -> option mop;  (* operations in flight on the metadata device *)
  mh : nat -> list (nat * (nat -> N));  (* metadata device medium, per stripe-header sector (group), newest first *)
  mdone : nat -> bool;  (* metadata device writes that completed successfully *)
  slive : bool;  (* the stripe source is the real one (not the null device) *)
  panic : bool  (* some thread has panicked *)
}.
Arguments mk_state {V}.
Arguments chq {V}.
Arguments chfin {V}.
Arguments chreq {V}.
Arguments shf {V}.
Arguments shw {V}.
Arguments cntF {V}.
Arguments cntS {V}.
Arguments mq {V}.
Arguments wdone {V}.
Arguments fq {V}.
Arguments fauto {V}.
Arguments fsts {V}.
Arguments fret {V}.
Arguments fbuf {V}.
Arguments ffin {V}.
Arguments fdisc {V}.
Arguments favail {V}.
Arguments fuse {V}.
Arguments bufs {V}.
Arguments hdrs {V}.
Arguments mupd {V}.
Arguments msec {V}.
Arguments mqueue {V}.
Arguments mavail {V}.
Arguments muse {V}.
Arguments mbufs {V}.
Arguments ops {V}.
Arguments next {V}.
Arguments bh {V}.
Arguments bdone {V}.
Arguments sops {V}.
Arguments mops {V}.
Arguments mh {V}.
Arguments mdone {V}.
Arguments slive {V}.
Arguments panic {V}.

Definition set_chq {V} (x : nat -> list (rwreq V)) (s : state V) : state V :=
  mk_state x (s.(chfin)) (s.(chreq)) (s.(shf)) (s.(shw)) (s.(cntF)) (s.(cntS)) (s.(mq)) (s.(wdone)) (s.(fq)) (s.(fauto)) (s.(fsts)) (s.(fret)) (s.(fbuf)) (s.(ffin)) (s.(fdisc)) (s.(favail)) (s.(fuse)) (s.(bufs)) (s.(hdrs)) (s.(mupd)) (s.(msec)) (s.(mqueue)) (s.(mavail)) (s.(muse)) (s.(mbufs)) (s.(ops)) (s.(next)) (s.(bh)) (s.(bdone)) (s.(sops)) (s.(mops)) (s.(mh)) (s.(mdone)) (s.(slive)) (s.(panic)).
Definition set_chfin {V} (x : nat -> list (nat * nat)) (s : state V) : state V :=
  mk_state (s.(chq)) x (s.(chreq)) (s.(shf)) (s.(shw)) (s.(cntF)) (s.(cntS)) (s.(mq)) (s.(wdone)) (s.(fq)) (s.(fauto)) (s.(fsts)) (s.(fret)) (s.(fbuf)) (s.(ffin)) (s.(fdisc)) (s.(favail)) (s.(fuse)) (s.(bufs)) (s.(hdrs)) (s.(mupd)) (s.(msec)) (s.(mqueue)) (s.(mavail)) (s.(muse)) (s.(mbufs)) (s.(ops)) (s.(next)) (s.(bh)) (s.(bdone)) (s.(sops)) (s.(mops)) (s.(mh)) (s.(mdone)) (s.(slive)) (s.(panic)).
Definition set_chreq {V} (x : nat -> nat -> bool) (s : state V) : state V :=
  mk_state (s.(chq)) (s.(chfin)) x (s.(shf)) (s.(shw)) (s.(cntF)) (s.(cntS)) (s.(mq)) (s.(wdone)) (s.(fq)) (s.(fauto)) (s.(fsts)) (s.(fret)) (s.(fbuf)) (s.(ffin)) (s.(fdisc)) (s.(favail)) (s.(fuse)) (s.(bufs)) (s.(hdrs)) (s.(mupd)) (s.(msec)) (s.(mqueue)) (s.(mavail)) (s.(muse)) (s.(mbufs)) (s.(ops)) (s.(next)) (s.(bh)) (s.(bdone)) (s.(sops)) (s.(mops)) (s.(mh)) (s.(mdone)) (s.(slive)) (s.(panic)).
Definition set_shf {V} (x : nat -> fetch_state) (s : state V) : state V :=
  mk_state (s.(chq)) (s.(chfin)) (s.(chreq)) x (s.(shw)) (s.(cntF)) (s.(cntS)) (s.(mq)) (s.(wdone)) (s.(fq)) (s.(fauto)) (s.(fsts)) (s.(fret)) (s.(fbuf)) (s.(ffin)) (s.(fdisc)) (s.(favail)) (s.(fuse)) (s.(bufs)) (s.(hdrs)) (s.(mupd)) (s.(msec)) (s.(mqueue)) (s.(mavail)) (s.(muse)) (s.(mbufs)) (s.(ops)) (s.(next)) (s.(bh)) (s.(bdone)) (s.(sops)) (s.(mops)) (s.(mh)) (s.(mdone)) (s.(slive)) (s.(panic)).
Definition set_shw {V} (x : nat -> bool) (s : state V) : state V :=
  mk_state (s.(chq)) (s.(chfin)) (s.(chreq)) (s.(shf)) x (s.(cntF)) (s.(cntS)) (s.(mq)) (s.(wdone)) (s.(fq)) (s.(fauto)) (s.(fsts)) (s.(fret)) (s.(fbuf)) (s.(ffin)) (s.(fdisc)) (s.(favail)) (s.(fuse)) (s.(bufs)) (s.(hdrs)) (s.(mupd)) (s.(msec)) (s.(mqueue)) (s.(mavail)) (s.(muse)) (s.(mbufs)) (s.(ops)) (s.(next)) (s.(bh)) (s.(bdone)) (s.(sops)) (s.(mops)) (s.(mh)) (s.(mdone)) (s.(slive)) (s.(panic)).
Definition set_cntF {V} (x : nat) (s : state V) : state V :=
  mk_state (s.(chq)) (s.(chfin)) (s.(chreq)) (s.(shf)) (s.(shw)) x (s.(cntS)) (s.(mq)) (s.(wdone)) (s.(fq)) (s.(fauto)) (s.(fsts)) (s.(fret)) (s.(fbuf)) (s.(ffin)) (s.(fdisc)) (s.(favail)) (s.(fuse)) (s.(bufs)) (s.(hdrs)) (s.(mupd)) (s.(msec)) (s.(mqueue)) (s.(mavail)) (s.(muse)) (s.(mbufs)) (s.(ops)) (s.(next)) (s.(bh)) (s.(bdone)) (s.(sops)) (s.(mops)) (s.(mh)) (s.(mdone)) (s.(slive)) (s.(panic)).
Definition set_cntS {V} (x : nat) (s : state V) : state V :=
  mk_state (s.(chq)) (s.(chfin)) (s.(chreq)) (s.(shf)) (s.(shw)) (s.(cntF)) x (s.(mq)) (s.(wdone)) (s.(fq)) (s.(fauto)) (s.(fsts)) (s.(fret)) (s.(fbuf)) (s.(ffin)) (s.(fdisc)) (s.(favail)) (s.(fuse)) (s.(bufs)) (s.(hdrs)) (s.(mupd)) (s.(msec)) (s.(mqueue)) (s.(mavail)) (s.(muse)) (s.(mbufs)) (s.(ops)) (s.(next)) (s.(bh)) (s.(bdone)) (s.(sops)) (s.(mops)) (s.(mh)) (s.(mdone)) (s.(slive)) (s.(panic)).
Definition set_mq {V} (x : list bgreq) (s : state V) : state V :=
  mk_state (s.(chq)) (s.(chfin)) (s.(chreq)) (s.(shf)) (s.(shw)) (s.(cntF)) (s.(cntS)) x (s.(wdone)) (s.(fq)) (s.(fauto)) (s.(fsts)) (s.(fret)) (s.(fbuf)) (s.(ffin)) (s.(fdisc)) (s.(favail)) (s.(fuse)) (s.(bufs)) (s.(hdrs)) (s.(mupd)) (s.(msec)) (s.(mqueue)) (s.(mavail)) (s.(muse)) (s.(mbufs)) (s.(ops)) (s.(next)) (s.(bh)) (s.(bdone)) (s.(sops)) (s.(mops)) (s.(mh)) (s.(mdone)) (s.(slive)) (s.(panic)).
Definition set_wdone {V} (x : bool) (s : state V) : state V :=
  mk_state (s.(chq)) (s.(chfin)) (s.(chreq)) (s.(shf)) (s.(shw)) (s.(cntF)) (s.(cntS)) (s.(mq)) x (s.(fq)) (s.(fauto)) (s.(fsts)) (s.(fret)) (s.(fbuf)) (s.(ffin)) (s.(fdisc)) (s.(favail)) (s.(fuse)) (s.(bufs)) (s.(hdrs)) (s.(mupd)) (s.(msec)) (s.(mqueue)) (s.(mavail)) (s.(muse)) (s.(mbufs)) (s.(ops)) (s.(next)) (s.(bh)) (s.(bdone)) (s.(sops)) (s.(mops)) (s.(mh)) (s.(mdone)) (s.(slive)) (s.(panic)).
Definition set_fq {V} (x : list nat) (s : state V) : state V :=
  mk_state (s.(chq)) (s.(chfin)) (s.(chreq)) (s.(shf)) (s.(shw)) (s.(cntF)) (s.(cntS)) (s.(mq)) (s.(wdone)) x (s.(fauto)) (s.(fsts)) (s.(fret)) (s.(fbuf)) (s.(ffin)) (s.(fdisc)) (s.(favail)) (s.(fuse)) (s.(bufs)) (s.(hdrs)) (s.(mupd)) (s.(msec)) (s.(mqueue)) (s.(mavail)) (s.(muse)) (s.(mbufs)) (s.(ops)) (s.(next)) (s.(bh)) (s.(bdone)) (s.(sops)) (s.(mops)) (s.(mh)) (s.(mdone)) (s.(slive)) (s.(panic)).
Definition set_fauto {V} (x : list nat) (s : state V) : state V :=
  mk_state (s.(chq)) (s.(chfin)) (s.(chreq)) (s.(shf)) (s.(shw)) (s.(cntF)) (s.(cntS)) (s.(mq)) (s.(wdone)) (s.(fq)) x (s.(fsts)) (s.(fret)) (s.(fbuf)) (s.(ffin)) (s.(fdisc)) (s.(favail)) (s.(fuse)) (s.(bufs)) (s.(hdrs)) (s.(mupd)) (s.(msec)) (s.(mqueue)) (s.(mavail)) (s.(muse)) (s.(mbufs)) (s.(ops)) (s.(next)) (s.(bh)) (s.(bdone)) (s.(sops)) (s.(mops)) (s.(mh)) (s.(mdone)) (s.(slive)) (s.(panic)).
Definition set_fsts {V} (x : nat -> option fstate) (s : state V) : state V :=
  mk_state (s.(chq)) (s.(chfin)) (s.(chreq)) (s.(shf)) (s.(shw)) (s.(cntF)) (s.(cntS)) (s.(mq)) (s.(wdone)) (s.(fq)) (s.(fauto)) x (s.(fret)) (s.(fbuf)) (s.(ffin)) (s.(fdisc)) (s.(favail)) (s.(fuse)) (s.(bufs)) (s.(hdrs)) (s.(mupd)) (s.(msec)) (s.(mqueue)) (s.(mavail)) (s.(muse)) (s.(mbufs)) (s.(ops)) (s.(next)) (s.(bh)) (s.(bdone)) (s.(sops)) (s.(mops)) (s.(mh)) (s.(mdone)) (s.(slive)) (s.(panic)).
Definition set_fret {V} (x : nat -> nat) (s : state V) : state V :=
  mk_state (s.(chq)) (s.(chfin)) (s.(chreq)) (s.(shf)) (s.(shw)) (s.(cntF)) (s.(cntS)) (s.(mq)) (s.(wdone)) (s.(fq)) (s.(fauto)) (s.(fsts)) x (s.(fbuf)) (s.(ffin)) (s.(fdisc)) (s.(favail)) (s.(fuse)) (s.(bufs)) (s.(hdrs)) (s.(mupd)) (s.(msec)) (s.(mqueue)) (s.(mavail)) (s.(muse)) (s.(mbufs)) (s.(ops)) (s.(next)) (s.(bh)) (s.(bdone)) (s.(sops)) (s.(mops)) (s.(mh)) (s.(mdone)) (s.(slive)) (s.(panic)).
Definition set_fbuf {V} (x : nat -> option nat) (s : state V) : state V :=
  mk_state (s.(chq)) (s.(chfin)) (s.(chreq)) (s.(shf)) (s.(shw)) (s.(cntF)) (s.(cntS)) (s.(mq)) (s.(wdone)) (s.(fq)) (s.(fauto)) (s.(fsts)) (s.(fret)) x (s.(ffin)) (s.(fdisc)) (s.(favail)) (s.(fuse)) (s.(bufs)) (s.(hdrs)) (s.(mupd)) (s.(msec)) (s.(mqueue)) (s.(mavail)) (s.(muse)) (s.(mbufs)) (s.(ops)) (s.(next)) (s.(bh)) (s.(bdone)) (s.(sops)) (s.(mops)) (s.(mh)) (s.(mdone)) (s.(slive)) (s.(panic)).
Definition set_ffin {V} (x : list (nat * bool)) (s : state V) : state V :=
  mk_state (s.(chq)) (s.(chfin)) (s.(chreq)) (s.(shf)) (s.(shw)) (s.(cntF)) (s.(cntS)) (s.(mq)) (s.(wdone)) (s.(fq)) (s.(fauto)) (s.(fsts)) (s.(fret)) (s.(fbuf)) x (s.(fdisc)) (s.(favail)) (s.(fuse)) (s.(bufs)) (s.(hdrs)) (s.(mupd)) (s.(msec)) (s.(mqueue)) (s.(mavail)) (s.(muse)) (s.(mbufs)) (s.(ops)) (s.(next)) (s.(bh)) (s.(bdone)) (s.(sops)) (s.(mops)) (s.(mh)) (s.(mdone)) (s.(slive)) (s.(panic)).
Definition set_fdisc {V} (x : bool) (s : state V) : state V :=
  mk_state (s.(chq)) (s.(chfin)) (s.(chreq)) (s.(shf)) (s.(shw)) (s.(cntF)) (s.(cntS)) (s.(mq)) (s.(wdone)) (s.(fq)) (s.(fauto)) (s.(fsts)) (s.(fret)) (s.(fbuf)) (s.(ffin)) x (s.(favail)) (s.(fuse)) (s.(bufs)) (s.(hdrs)) (s.(mupd)) (s.(msec)) (s.(mqueue)) (s.(mavail)) (s.(muse)) (s.(mbufs)) (s.(ops)) (s.(next)) (s.(bh)) (s.(bdone)) (s.(sops)) (s.(mops)) (s.(mh)) (s.(mdone)) (s.(slive)) (s.(panic)).
Definition set_favail {V} (x : list nat) (s : state V) : state V :=
  mk_state (s.(chq)) (s.(chfin)) (s.(chreq)) (s.(shf)) (s.(shw)) (s.(cntF)) (s.(cntS)) (s.(mq)) (s.(wdone)) (s.(fq)) (s.(fauto)) (s.(fsts)) (s.(fret)) (s.(fbuf)) (s.(ffin)) (s.(fdisc)) x (s.(fuse)) (s.(bufs)) (s.(hdrs)) (s.(mupd)) (s.(msec)) (s.(mqueue)) (s.(mavail)) (s.(muse)) (s.(mbufs)) (s.(ops)) (s.(next)) (s.(bh)) (s.(bdone)) (s.(sops)) (s.(mops)) (s.(mh)) (s.(mdone)) (s.(slive)) (s.(panic)).
Definition set_fuse {V} (x : nat -> bool) (s : state V) : state V :=
  mk_state (s.(chq)) (s.(chfin)) (s.(chreq)) (s.(shf)) (s.(shw)) (s.(cntF)) (s.(cntS)) (s.(mq)) (s.(wdone)) (s.(fq)) (s.(fauto)) (s.(fsts)) (s.(fret)) (s.(fbuf)) (s.(ffin)) (s.(fdisc)) (s.(favail)) x (s.(bufs)) (s.(hdrs)) (s.(mupd)) (s.(msec)) (s.(mqueue)) (s.(mavail)) (s.(muse)) (s.(mbufs)) (s.(ops)) (s.(next)) (s.(bh)) (s.(bdone)) (s.(sops)) (s.(mops)) (s.(mh)) (s.(mdone)) (s.(slive)) (s.(panic)).
Definition set_bufs {V} (x : nat -> nat -> V) (s : state V) : state V :=
  mk_state (s.(chq)) (s.(chfin)) (s.(chreq)) (s.(shf)) (s.(shw)) (s.(cntF)) (s.(cntS)) (s.(mq)) (s.(wdone)) (s.(fq)) (s.(fauto)) (s.(fsts)) (s.(fret)) (s.(fbuf)) (s.(ffin)) (s.(fdisc)) (s.(favail)) (s.(fuse)) x (s.(hdrs)) (s.(mupd)) (s.(msec)) (s.(mqueue)) (s.(mavail)) (s.(muse)) (s.(mbufs)) (s.(ops)) (s.(next)) (s.(bh)) (s.(bdone)) (s.(sops)) (s.(mops)) (s.(mh)) (s.(mdone)) (s.(slive)) (s.(panic)).
Definition set_hdrs {V} (x : nat -> N) (s : state V) : state V :=
  mk_state (s.(chq)) (s.(chfin)) (s.(chreq)) (s.(shf)) (s.(shw)) (s.(cntF)) (s.(cntS)) (s.(mq)) (s.(wdone)) (s.(fq)) (s.(fauto)) (s.(fsts)) (s.(fret)) (s.(fbuf)) (s.(ffin)) (s.(fdisc)) (s.(favail)) (s.(fuse)) (s.(bufs)) x (s.(mupd)) (s.(msec)) (s.(mqueue)) (s.(mavail)) (s.(muse)) (s.(mbufs)) (s.(ops)) (s.(next)) (s.(bh)) (s.(bdone)) (s.(sops)) (s.(mops)) (s.(mh)) (s.(mdone)) (s.(slive)) (s.(panic)).
Definition set_mupd {V} (x : nat -> option hupd) (s : state V) : state V :=
  mk_state (s.(chq)) (s.(chfin)) (s.(chreq)) (s.(shf)) (s.(shw)) (s.(cntF)) (s.(cntS)) (s.(mq)) (s.(wdone)) (s.(fq)) (s.(fauto)) (s.(fsts)) (s.(fret)) (s.(fbuf)) (s.(ffin)) (s.(fdisc)) (s.(favail)) (s.(fuse)) (s.(bufs)) (s.(hdrs)) x (s.(msec)) (s.(mqueue)) (s.(mavail)) (s.(muse)) (s.(mbufs)) (s.(ops)) (s.(next)) (s.(bh)) (s.(bdone)) (s.(sops)) (s.(mops)) (s.(mh)) (s.(mdone)) (s.(slive)) (s.(panic)).
Definition set_msec {V} (x : list nat) (s : state V) : state V :=
  mk_state (s.(chq)) (s.(chfin)) (s.(chreq)) (s.(shf)) (s.(shw)) (s.(cntF)) (s.(cntS)) (s.(mq)) (s.(wdone)) (s.(fq)) (s.(fauto)) (s.(fsts)) (s.(fret)) (s.(fbuf)) (s.(ffin)) (s.(fdisc)) (s.(favail)) (s.(fuse)) (s.(bufs)) (s.(hdrs)) (s.(mupd)) x (s.(mqueue)) (s.(mavail)) (s.(muse)) (s.(mbufs)) (s.(ops)) (s.(next)) (s.(bh)) (s.(bdone)) (s.(sops)) (s.(mops)) (s.(mh)) (s.(mdone)) (s.(slive)) (s.(panic)).
Definition set_mqueue {V} (x : list (nat * mkind)) (s : state V) : state V :=
  mk_state (s.(chq)) (s.(chfin)) (s.(chreq)) (s.(shf)) (s.(shw)) (s.(cntF)) (s.(cntS)) (s.(mq)) (s.(wdone)) (s.(fq)) (s.(fauto)) (s.(fsts)) (s.(fret)) (s.(fbuf)) (s.(ffin)) (s.(fdisc)) (s.(favail)) (s.(fuse)) (s.(bufs)) (s.(hdrs)) (s.(mupd)) (s.(msec)) x (s.(mavail)) (s.(muse)) (s.(mbufs)) (s.(ops)) (s.(next)) (s.(bh)) (s.(bdone)) (s.(sops)) (s.(mops)) (s.(mh)) (s.(mdone)) (s.(slive)) (s.(panic)).
Definition set_mavail {V} (x : list nat) (s : state V) : state V :=
  mk_state (s.(chq)) (s.(chfin)) (s.(chreq)) (s.(shf)) (s.(shw)) (s.(cntF)) (s.(cntS)) (s.(mq)) (s.(wdone)) (s.(fq)) (s.(fauto)) (s.(fsts)) (s.(fret)) (s.(fbuf)) (s.(ffin)) (s.(fdisc)) (s.(favail)) (s.(fuse)) (s.(bufs)) (s.(hdrs)) (s.(mupd)) (s.(msec)) (s.(mqueue)) x (s.(muse)) (s.(mbufs)) (s.(ops)) (s.(next)) (s.(bh)) (s.(bdone)) (s.(sops)) (s.(mops)) (s.(mh)) (s.(mdone)) (s.(slive)) (s.(panic)).
Definition set_muse {V} (x : nat -> bool) (s : state V) : state V :=
  mk_state (s.(chq)) (s.(chfin)) (s.(chreq)) (s.(shf)) (s.(shw)) (s.(cntF)) (s.(cntS)) (s.(mq)) (s.(wdone)) (s.(fq)) (s.(fauto)) (s.(fsts)) (s.(fret)) (s.(fbuf)) (s.(ffin)) (s.(fdisc)) (s.(favail)) (s.(fuse)) (s.(bufs)) (s.(hdrs)) (s.(mupd)) (s.(msec)) (s.(mqueue)) (s.(mavail)) x (s.(mbufs)) (s.(ops)) (s.(next)) (s.(bh)) (s.(bdone)) (s.(sops)) (s.(mops)) (s.(mh)) (s.(mdone)) (s.(slive)) (s.(panic)).
Definition set_mbufs {V} (x : nat -> nat -> N) (s : state V) : state V :=
  mk_state (s.(chq)) (s.(chfin)) (s.(chreq)) (s.(shf)) (s.(shw)) (s.(cntF)) (s.(cntS)) (s.(mq)) (s.(wdone)) (s.(fq)) (s.(fauto)) (s.(fsts)) (s.(fret)) (s.(fbuf)) (s.(ffin)) (s.(fdisc)) (s.(favail)) (s.(fuse)) (s.(bufs)) (s.(hdrs)) (s.(mupd)) (s.(msec)) (s.(mqueue)) (s.(mavail)) (s.(muse)) x (s.(ops)) (s.(next)) (s.(bh)) (s.(bdone)) (s.(sops)) (s.(mops)) (s.(mh)) (s.(mdone)) (s.(slive)) (s.(panic)).
Definition set_ops {V} (x : nat -> option (op V)) (s : state V) : state V :=
  mk_state (s.(chq)) (s.(chfin)) (s.(chreq)) (s.(shf)) (s.(shw)) (s.(cntF)) (s.(cntS)) (s.(mq)) (s.(wdone)) (s.(fq)) (s.(fauto)) (s.(fsts)) (s.(fret)) (s.(fbuf)) (s.(ffin)) (s.(fdisc)) (s.(favail)) (s.(fuse)) (s.(bufs)) (s.(hdrs)) (s.(mupd)) (s.(msec)) (s.(mqueue)) (s.(mavail)) (s.(muse)) (s.(mbufs)) x (s.(next)) (s.(bh)) (s.(bdone)) (s.(sops)) (s.(mops)) (s.(mh)) (s.(mdone)) (s.(slive)) (s.(panic)).
Definition set_next {V} (x : nat) (s : state V) : state V :=
  mk_state (s.(chq)) (s.(chfin)) (s.(chreq)) (s.(shf)) (s.(shw)) (s.(cntF)) (s.(cntS)) (s.(mq)) (s.(wdone)) (s.(fq)) (s.(fauto)) (s.(fsts)) (s.(fret)) (s.(fbuf)) (s.(ffin)) (s.(fdisc)) (s.(favail)) (s.(fuse)) (s.(bufs)) (s.(hdrs)) (s.(mupd)) (s.(msec)) (s.(mqueue)) (s.(mavail)) (s.(muse)) (s.(mbufs)) (s.(ops)) x (s.(bh)) (s.(bdone)) (s.(sops)) (s.(mops)) (s.(mh)) (s.(mdone)) (s.(slive)) (s.(panic)).
Definition set_bh {V} (x : nat -> list (nat * V)) (s : state V) : state V :=
  mk_state (s.(chq)) (s.(chfin)) (s.(chreq)) (s.(shf)) (s.(shw)) (s.(cntF)) (s.(cntS)) (s.(mq)) (s.(wdone)) (s.(fq)) (s.(fauto)) (s.(fsts)) (s.(fret)) (s.(fbuf)) (s.(ffin)) (s.(fdisc)) (s.(favail)) (s.(fuse)) (s.(bufs)) (s.(hdrs)) (s.(mupd)) (s.(msec)) (s.(mqueue)) (s.(mavail)) (s.(muse)) (s.(mbufs)) (s.(ops)) (s.(next)) x (s.(bdone)) (s.(sops)) (s.(mops)) (s.(mh)) (s.(mdone)) (s.(slive)) (s.(panic)).
Definition set_bdone {V} (x : nat -> bool) (s : state V) : state V :=
  mk_state (s.(chq)) (s.(chfin)) (s.(chreq)) (s.(shf)) (s.(shw)) (s.(cntF)) (s.(cntS)) (s.(mq)) (s.(wdone)) (s.(fq)) (s.(fauto)) (s.(fsts)) (s.(fret)) (s.(fbuf)) (s.(ffin)) (s.(fdisc)) (s.(favail)) (s.(fuse)) (s.(bufs)) (s.(hdrs)) (s.(mupd)) (s.(msec)) (s.(mqueue)) (s.(mavail)) (s.(muse)) (s.(mbufs)) (s.(ops)) (s.(next)) (s.(bh)) x (s.(sops)) (s.(mops)) (s.(mh)) (s.(mdone)) (s.(slive)) (s.(panic)).
Definition set_sops {V} (x : nat -> option (nat * nat)) (s : state V) : state V :=
  mk_state (s.(chq)) (s.(chfin)) (s.(chreq)) (s.(shf)) (s.(shw)) (s.(cntF)) (s.(cntS)) (s.(mq)) (s.(wdone)) (s.(fq)) (s.(fauto)) (s.(fsts)) (s.(fret)) (s.(fbuf)) (s.(ffin)) (s.(fdisc)) (s.(favail)) (s.(fuse)) (s.(bufs)) (s.(hdrs)) (s.(mupd)) (s.(msec)) (s.(mqueue)) (s.(mavail)) (s.(muse)) (s.(mbufs)) (s.(ops)) (s.(next)) (s.(bh)) (s.(bdone)) x (s.(mops)) (s.(mh)) (s.(mdone)) (s.(slive)) (s.(panic)).
Definition set_mops {V} (x : nat -> option mop) (s : state V) : state V :=
  mk_state (s.(chq)) (s.(chfin)) (s.(chreq)) (s.(shf)) (s.(shw)) (s.(cntF)) (s.(cntS)) (s.(mq)) (s.(wdone)) (s.(fq)) (s.(fauto)) (s.(fsts)) (s.(fret)) (s.(fbuf)) (s.(ffin)) (s.(fdisc)) (s.(favail)) (s.(fuse)) (s.(bufs)) (s.(hdrs)) (s.(mupd)) (s.(msec)) (s.(mqueue)) (s.(mavail)) (s.(muse)) (s.(mbufs)) (s.(ops)) (s.(next)) (s.(bh)) (s.(bdone)) (s.(sops)) x (s.(mh)) (s.(mdone)) (s.(slive)) (s.(panic)).
Definition set_mh {V} (x : nat -> list (nat * (nat -> N))) (s : state V) : state V :=
  mk_state (s.(chq)) (s.(chfin)) (s.(chreq)) (s.(shf)) (s.(shw)) (s.(cntF)) (s.(cntS)) (s.(mq)) (s.(wdone)) (s.(fq)) (s.(fauto)) (s.(fsts)) (s.(fret)) (s.(fbuf)) (s.(ffin)) (s.(fdisc)) (s.(favail)) (s.(fuse)) (s.(bufs)) (s.(hdrs)) (s.(mupd)) (s.(msec)) (s.(mqueue)) (s.(mavail)) (s.(muse)) (s.(mbufs)) (s.(ops)) (s.(next)) (s.(bh)) (s.(bdone)) (s.(sops)) (s.(mops)) x (s.(mdone)) (s.(slive)) (s.(panic)).
Definition set_mdone {V} (x : nat -> bool) (s : state V) : state V :=
  mk_state (s.(chq)) (s.(chfin)) (s.(chreq)) (s.(shf)) (s.(shw)) (s.(cntF)) (s.(cntS)) (s.(mq)) (s.(wdone)) (s.(fq)) (s.(fauto)) (s.(fsts)) (s.(fret)) (s.(fbuf)) (s.(ffin)) (s.(fdisc)) (s.(favail)) (s.(fuse)) (s.(bufs)) (s.(hdrs)) (s.(mupd)) (s.(msec)) (s.(mqueue)) (s.(mavail)) (s.(muse)) (s.(mbufs)) (s.(ops)) (s.(next)) (s.(bh)) (s.(bdone)) (s.(sops)) (s.(mops)) (s.(mh)) x (s.(slive)) (s.(panic)).
Definition set_slive {V} (x : bool) (s : state V) : state V :=
  mk_state (s.(chq)) (s.(chfin)) (s.(chreq)) (s.(shf)) (s.(shw)) (s.(cntF)) (s.(cntS)) (s.(mq)) (s.(wdone)) (s.(fq)) (s.(fauto)) (s.(fsts)) (s.(fret)) (s.(fbuf)) (s.(ffin)) (s.(fdisc)) (s.(favail)) (s.(fuse)) (s.(bufs)) (s.(hdrs)) (s.(mupd)) (s.(msec)) (s.(mqueue)) (s.(mavail)) (s.(muse)) (s.(mbufs)) (s.(ops)) (s.(next)) (s.(bh)) (s.(bdone)) (s.(sops)) (s.(mops)) (s.(mh)) (s.(mdone)) x (s.(panic)).
Definition set_panic {V} (x : bool) (s : state V) : state V :=
  mk_state (s.(chq)) (s.(chfin)) (s.(chreq)) (s.(shf)) (s.(shw)) (s.(cntF)) (s.(cntS)) (s.(mq)) (s.(wdone)) (s.(fq)) (s.(fauto)) (s.(fsts)) (s.(fret)) (s.(fbuf)) (s.(ffin)) (s.(fdisc)) (s.(favail)) (s.(fuse)) (s.(bufs)) (s.(hdrs)) (s.(mupd)) (s.(msec)) (s.(mqueue)) (s.(mavail)) (s.(muse)) (s.(mbufs)) (s.(ops)) (s.(next)) (s.(bh)) (s.(bdone)) (s.(sops)) (s.(mops)) (s.(mh)) (s.(mdone)) (s.(slive)) x.
