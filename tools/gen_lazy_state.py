#!/usr/bin/env python3
"""Generates the record type of the lazy-device model and its field setters
(theories/LazyState.v)."""
fields = [
 ("chq","nat -> list (rwreq V)","queued_rw_requests of each queue"),
 ("chfin","nat -> list (nat * nat)","finished_requests of each queue: (serial, id), all failed"),
 ("chreq","nat -> nat -> bool","stripe_fetches_requested of each queue"),
 ("shf","nat -> fetch_state","SharedMetadataState::stripe_fetch_states"),
 ("shw","nat -> bool","SharedMetadataState::stripe_write_states"),
 ("cntF","nat","SharedMetadataState::fetched_stripes_count"),
 ("cntS","nat","SharedMetadataState::source_stripes_count"),
 ("mq","list bgreq","the mpsc channel to the worker, oldest first"),
 ("wdone","bool","BgWorker::done (worker stopped, receiver dropped)"),
 ("fq","list nat","StripeFetcher::fetch_queue"),
 ("fauto","list nat","StripeFetcher::autofetch_queue"),
 ("fsts","nat -> option fstate","StripeFetcher::stripe_states"),
 ("fret","nat -> nat","StripeFetcher::stripe_fetch_retries (absent = 0)"),
 ("fbuf","nat -> option nat","StripeFetcher::allocated_buffers: stripe to pool index"),
 ("ffin","list (nat * bool)","StripeFetcher::finished_fetches"),
 ("fdisc","bool","StripeFetcher::disconnected"),
 ("favail","list nat","fetch buffer pool: available_buffers"),
 ("fuse","nat -> bool","fetch buffer pool: in_use"),
 ("bufs","nat -> nat -> V","contents of the fetch buffers: index, sector in buffer"),
 ("hdrs","nat -> N","MetadataFlusher::metadata.stripe_headers, by stripe id"),
 ("mupd","nat -> option hupd","MetadataFlusher::header_updates"),
 ("msec","list nat","MetadataFlusher::sectors_being_updated"),
 ("mqueue","list (nat * mkind)","MetadataFlusher::queued_requests"),
 ("mavail","list nat","metadata buffer pool: available_buffers"),
 ("muse","nat -> bool","metadata buffer pool: in_use"),
 ("mbufs","nat -> nat -> N","contents of the metadata buffers: buffer index, stripe id (only the ids of one sector matter)"),
 ("ops","nat -> option (op V)","operations in flight on the base and image devices, by serial"),
 ("next","nat","next operation serial (ghost)"),
 ("bh","nat -> list (nat * V)","base device medium: per sector, values written and not yet superseded durably, newest first"),
 ("bdone","nat -> bool","base device writes that completed successfully"),
 ("sops","nat -> option (nat * nat)","requests in flight at the stripe source: stripe, buffer"),
 ("mops","nat -> option mop","operations in flight on the metadata device"),
 ("mh","nat -> list (nat * (nat -> N))","metadata device medium, per stripe-header sector (group), newest first"),
 ("mdone","nat -> bool","metadata device writes that completed successfully"),
 ("slive","bool","the stripe source is the real one (not the null device)"),
 ("panic","bool","some thread has panicked"),
]
out = []
w = out.append
w('''(** GENERATED by tools/gen_lazy_state.py: the state of the lazy-device model and
    its field setters.  See LazyModel.v for the transitions.  The types mirror
    device.rs:18-50, bgworker.rs:10-22, stripe_fetcher.rs:18-43,
    metadata_flusher.rs:15-51, metadata/shared_state.rs:8-22 and
    utils/aligned_buffer_pool.rs:9-13 under src/block_device/bdev_lazy (and
    src/utils). *)
From Coq Require Import List NArith.
Import ListNotations.
From Verif Require Import DiskSpec.

(** shared_state.rs:16-19. *)
Inductive fetch_state := NotFetched | Fetched | Failed | NoSource.
(** stripe_fetcher.rs:19-24. *)
Inductive fstate := FQueued | FFetching | FFlushing | FFetched.
(** bgworker.rs:10-14 (Shutdown is an event of the model). *)
Inductive bgreq := BFetch (st : nat) | BSetWritten (st : nat).
(** metadata_flusher.rs:16-19. *)
Inductive mkind := SetFetched | SetWritten.
(** metadata_flusher.rs:28-31. *)
Inductive mstage := MWriting | MFlushing.
(** metadata_flusher.rs:33-41. *)
Record hupd := mk_hupd { u_buf : nat; u_stage : mstage; u_header : N; u_mask : N; u_sector : nat }.

(** device.rs:31-39; [rq_serial] is the ghost identity of the request, the
    request kind and data are in [rq_req]. *)
Record rwreq (V : Type) := mk_rwreq { rq_serial : nat; rq_id : nat; rq_req : req V }.
Arguments mk_rwreq {V}. Arguments rq_serial {V}. Arguments rq_id {V}. Arguments rq_req {V}.

(** An operation in flight on the base or image device. *)
Inductive owner := OGuest (c id : nat) | OFetch (st : nat).
Inductive device := DBase | DImage.
Inductive wdata (V : Type) := WData (l : list V) | WBuf (b : nat).
Arguments WData {V}. Arguments WBuf {V}.
Inductive opkind (V : Type) :=
| KWrite (off len : nat) (data : wdata V) (applied : nat -> bool)
| KRead (off len : nat) (got : nat -> option V)
| KFlush (snap : nat -> bool).
Arguments KWrite {V}. Arguments KRead {V}. Arguments KFlush {V}.
Record op (V : Type) := mk_op { o_owner : owner; o_dev : device; o_kind : opkind V }.
Arguments mk_op {V}. Arguments o_owner {V}. Arguments o_dev {V}. Arguments o_kind {V}.

(** An operation in flight on the metadata device, for a stripe id. *)
Inductive mop := MWrite (st sector buf : nat) (applied : bool) | MFlush (st : nat) (snap : nat -> bool).
''')
w("Record state (V : Type) := mk_state {")
for i,(n,t,c) in enumerate(fields):
    sep = ";" if i < len(fields)-1 else ""
    w(f"  {n} : {t}{sep}  (* {c} *)")
w("}.")
w("Arguments mk_state {V}.")
for n,_,_ in fields: w(f"Arguments {n} {{V}}.")
w("")
for n,t,_ in fields:
    args = " ".join("x" if m==n else f"(s.({m}))" for m,_,_ in fields)
    w(f"Definition set_{n} {{V}} (x : {t}) (s : state V) : state V :=\n  mk_state {args}.")
open("/verif/rocq/theories/LazyState.v","w").write("\n".join(out)+"\n")
