(** The lazy device as a program over a base device and a metadata device it does not
    know: the model of LayerModel.v with the metadata device taken out too.

    In LayerModel.v the metadata device is still part of the state, and holds header
    arrays.  Here it is outside, and is written to in sectors of bytes: the metadata
    flusher calls it (add_write, add_flush) and is told of completions (poll).  So the
    metadata device can be any device of the code, in practice a file with or without
    the encrypting device over it (src/backends/common/mod.rs:97-110 and 486-519
    [build_block_device]).  All paths are under /repo/src/block_device/bdev_lazy
    unless said otherwise. *)
From Coq Require Import List Arith NArith Bool.
Import ListNotations.
From Verif Require Import Base DiskSpec LazyState MetadataModel LazyModel LayerModel.

Inductive pevent (V : Type) :=
| PStep (e : oevent V)               (* a step in which nothing comes from the metadata device *)
| PMeta (n : nat) (ok : bool).       (* the metadata channel reports a completion *)
Arguments PStep {V}. Arguments PMeta {V}.

Section Layer.
Context {V : Type}.
Variable c_ : cfg V.

(** metadata_flusher.rs:207-211: the bytes of the sector of stripe [st] when the header
    array is [h] ([flusher_sector] does not fail for a stripe that exists). *)
Definition header_bytes (h : nat -> N) (st : nat) : list byte :=
  match flusher_sector (map h (seq 0 (nst c_))) st with Ok l => l | _ => [] end.

(** The calls made on the metadata channel between two states: the operations in flight
    on it that were not before.
    metadata_flusher.rs:213-214: add_write of one sector, the one of the group
    (types.rs stripe_id_to_sector: 1 + group), with the stripe's number as id;
    149: add_flush with the same id.  There is one channel, 0
    (metadata_flusher.rs:54-83). *)
Definition mcalls (s s' : state V) : list (titem (list byte)) :=
  flat_map (fun n =>
    match mops s n, mops s' n with
    | None, Some (MWrite st g b _) => [TIssue n 0 st (RWrite (1 + g) [header_bytes (mbufs s' b) st])]
    | None, Some (MFlush st _) => [TIssue n 0 st RFlush]
    | _, _ => []
    end) (seq 0 (next s')).

Definition stripe_of (o : mop) : nat := match o with MWrite st _ _ _ => st | MFlush st _ => st end.

(** The steps in which the metadata device of LayerModel.v takes part. *)
Definition metadata_step (e : oevent V) : bool :=
  match e with OOwn (EMApply _) | OOwn (EWMetaDone _ _) | OCrash _ => true | _ => false end.

(** One step, with what the guest sees, what passes between the lazy device and its base,
    and what passes between it and the metadata device.  [None]: not possible.
    [PMeta]: metadata_flusher.rs:124-165, one completion.  A failed submission (108-118)
    is the same as completions with failure.
    What the metadata device holds in the model's own state is not used. *)
Definition pstep (s : state V) (e : pevent V)
  : option (state V * list (titem V) * list (titem V) * list (titem (list byte))) :=
  match e with
  | PStep e =>
    if metadata_step e then None
    else
      match ostep c_ s e with
      | Some (s', g, b) => Some (s', g, b, mcalls s s')
      | None => None
      end
  | PMeta n ok =>
    if panic s || wdone s then None
    else
      match mops s n with
      | None => None
      | Some o =>
        let s1 := set_mops (upd (mops s) n None) s in
        let s2 := meta_completion c_ (stripe_of o) ok s1 in
        Some (s2, [], [], TDone n 0 (stripe_of o) ok [] :: mcalls s1 s2)
      end
  end.

Fixpoint prun (s : state V) (es : list (pevent V))
  : option (state V * list (titem V) * list (titem V) * list (titem (list byte))) :=
  match es with
  | [] => Some (s, [], [], [])
  | e :: r =>
    match pstep s e with
    | None => None
    | Some (s1, t1, b1, m1) =>
      match prun s1 r with
      | None => None
      | Some (s2, t2, b2, m2) => Some (s2, t1 ++ t2, b1 ++ b2, m1 ++ m2)
      end
    end
  end.
End Layer.
