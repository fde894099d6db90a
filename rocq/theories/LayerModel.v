(** The lazy device as a program over a base device it does not know: the model of
    LazyModel.v with the base device taken out.

    In LazyModel.v the base device is part of the state.  Here the base is outside:
    the lazy device calls it (add_read, add_write, add_flush) and is told of
    completions (poll), and nothing else passes between them.  So the base can be
    another layer, in practice the encrypting device of bdev_crypt.rs
    (src/backends/common/mod.rs:486-519 [build_block_device], used for the base
    device in 195-213).  The image, the stripe source and the metadata device stay
    inside.  All paths are under /repo/src/block_device/bdev_lazy unless said
    otherwise. *)
From Coq Require Import List Arith NArith Bool.
Import ListNotations.
From Verif Require Import Base DiskSpec LazyState MetadataModel LazyModel.

(** Channels of the base device: one per guest queue (device.rs:356-371
    [create_channel]) and the fetcher's (stripe_fetcher.rs:54). *)
Definition channel_of (o : owner) : nat := match o with OGuest q _ => S q | OFetch _ => 0 end.

(** The ids used there: the guest's own (device.rs:161-176, 212, 264, 300), and the
    stripe's number (stripe_fetcher.rs:246-251, 262). *)
Definition id_of (o : owner) : nat := match o with OGuest _ id => id | OFetch st => st end.

Inductive oevent (V : Type) :=
| OOwn (e : event V)                                      (* a step of the lazy device itself *)
| OBase (n : nat) (ok : bool) (data : list (option V))    (* the base channel reports a completion *)
| OScratch (b i : nat) (v : V)                            (* the base device stores something in a fetch buffer *)
| OCrash (pickm : nat -> nat).
Arguments OOwn {V}. Arguments OBase {V}. Arguments OScratch {V}. Arguments OCrash {V}.

Section Layer.
Context {V : Type}.
Variable c_ : cfg V.

(** What the base channel is asked to do: the data of a write is in the caller's
    buffer when add_write is called. *)
Definition request_of (s : state V) (k : opkind V) : req V :=
  match k with
  | KRead off len _ => RRead off len
  | KWrite off _ (WData l) _ => RWrite off l
  | KWrite off len (WBuf b) _ => RWrite off (map (bufs s b) (seq 0 len))
  | KFlush _ => RFlush
  end.

(** The calls made on the base device between two states: the operations in flight
    on it that were not before. *)
Definition calls (s s' : state V) : list (titem V) :=
  flat_map (fun n =>
    match ops s n, ops s' n with
    | None, Some (mk_op o DBase k) => [TIssue n (channel_of o) (id_of o) (request_of s' k)]
    | _, _ => []
    end) (seq 0 (next s')).

(** The events that are not the base device's business. *)
Definition own (s : state V) (e : event V) : bool :=
  match e with
  | EApply _ _ | ECrash _ _ => false
  | ESample n _ | EDone n _ => match ops s n with Some (mk_op _ DImage _) => true | _ => false end
  | _ => true
  end.

(** One step, with what the guest sees and what passes between the lazy device and
    its base.  [None]: not possible (the completion of something not asked for, or
    nobody polls that channel).
    [OBase]: device.rs:313-321 passes a completion of the base on as it is;
    stripe_fetcher.rs:214-237 handles one of its own.
    [OScratch]: the base may work in the buffers it is given (bdev_crypt.rs:43-51
    encrypts in place); simplified: it may do so at any time.
    The contents of the base device in the model's own state are not used. *)
Definition ostep (s : state V) (e : oevent V) : option (state V * list (titem V) * list (titem V)) :=
  match e with
  | OOwn e =>
    if own s e then let (s', t) := step c_ s e in Some (s', t, calls s s') else None
  | OBase n ok data =>
    if panic s then None
    else
      match ops s n with
      | Some (mk_op o DBase _) =>
        let s1 := set_ops (upd (ops s) n None) s in
        let d := TDone n (channel_of o) (id_of o) ok data in
        match o with
        | OGuest q id => Some (s1, [TDone n q id ok data], [d])
        | OFetch st =>
          if wdone s then None
          else let s2 := tgt_done c_ st ok s1 in Some (s2, [], d :: calls s1 s2)
        end
      | _ => None
      end
  | OScratch b i v => Some (set_bufs (upd (bufs s) b (upd (bufs s b) i v)) s, [], [])
  | OCrash pm => Some (crash c_ (fun _ => 0) pm s, [TCrash], [TCrash])
  end.

Fixpoint orun (s : state V) (es : list (oevent V)) : option (state V * list (titem V) * list (titem V)) :=
  match es with
  | [] => Some (s, [], [])
  | e :: r =>
    match ostep s e with
    | None => None
    | Some (s1, t1, b1) =>
      match orun s1 r with
      | None => None
      | Some (s2, t2, b2) => Some (s2, t1 ++ t2, b1 ++ b2)
      end
    end
  end.

(** First start with metadata headers [h]; what the base device holds is not known
    to the lazy device. *)
Definition oinit (h : nat -> N) : state V := init c_ (fun _ => blank c_) h.
End Layer.
