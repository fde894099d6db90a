(** Specification: what an ordinary disk is.  This file does not mention the
    lazy device; it is what the lazy device is compared with.

    A disk is an array of sectors.  Several clients (queues) have requests in
    flight at once.  A write takes effect sector by sector, in any order, at any
    time between its issue and its completion; a read samples each of its
    sectors at some moment between its issue and its completion; a flush makes
    durable every write that had completed when the flush was issued.  A failed
    write may have been applied to some of its sectors.  At a crash each sector
    independently keeps its newest durable value or any value written to it
    after that one (so writes that were not flushed may be lost, sector by
    sector, in any combination); nothing is in flight after a crash.  The model
    assumes sector-atomic writes. *)
From Coq Require Import List Arith Bool.
Import ListNotations.
From Verif Require Import Base.

(** ** The medium: per sector, the values that may be found after a crash,
    newest first, each with the serial number of the write that put it there.
    Serial 0 stands for data that was there from the start (or since the last
    crash) and is always durable. *)

(** Effect of a completed flush on one sector: everything older than the newest
    value known durable is forgotten. *)
Fixpoint trim {A} (durable : nat -> bool) (l : list (nat * A)) : list (nat * A) :=
  match l with
  | [] => []
  | e :: r => if durable (fst e) then [e] else e :: trim durable r
  end.

(** The current value of a sector. *)
Definition cur {A} (l : list (nat * A)) : option A :=
  match l with [] => None | e :: _ => Some (snd e) end.

(** Effect of a crash on one sector: the [i]-th candidate is what survives. *)
Definition crashed {A} (l : list (nat * A)) (i : nat) : list (nat * A) :=
  match nth_error l i with
  | Some e => [(0, snd e)]
  | None => match l with e :: _ => [(0, snd e)] | [] => [] end
  end.

(** ** Requests and what can be observed of them. *)

Inductive req (V : Type) := RRead (off len : nat) | RWrite (off : nat) (data : list V) | RFlush.
Arguments RRead {V}. Arguments RWrite {V}. Arguments RFlush {V}.

(** Observable events: a request is issued on queue [c] with caller-chosen id
    [id]; its completion is reported (with the data, for a successful read;
    [None] marks a sector beyond the end of the disk); the machine crashes and
    restarts.  [n] is a serial number telling requests apart. *)
Inductive titem (V : Type) :=
| TIssue (n c id : nat) (r : req V)
| TDone (n c id : nat) (ok : bool) (data : list (option V))
| TCrash.
Arguments TIssue {V}. Arguments TDone {V}. Arguments TCrash {V}.

(** ** The ordinary disk. *)

Inductive dkind (V : Type) :=
| DRead (off len : nat) (got : nat -> option V)
| DWrite (off : nat) (data : list V) (applied : nat -> bool)
| DFlush (snap : nat -> bool).
Arguments DRead {V}. Arguments DWrite {V}. Arguments DFlush {V}.

Record dop (V : Type) := mk_dop { d_ch : nat; d_id : nat; d_kind : dkind V }.
Arguments mk_dop {V}. Arguments d_ch {V}. Arguments d_id {V}. Arguments d_kind {V}.

Record disk (V : Type) := mk_disk {
  d_ops : nat -> option (dop V);      (* requests in flight *)
  d_used : nat -> bool;               (* serials already used *)
  d_hist : nat -> list (nat * V);     (* the medium *)
  d_done : nat -> bool                (* writes that completed successfully *)
}.
Arguments mk_disk {V}. Arguments d_ops {V}. Arguments d_used {V}. Arguments d_hist {V}. Arguments d_done {V}.

Inductive devent (V : Type) :=
| DIssue (n c id : nat) (r : req V)
| DApply (n i : nat)
| DSample (n i : nat)
| DDone (n : nat) (ok : bool)
| DCrash (survivor : nat -> nat).
Arguments DIssue {V}. Arguments DApply {V}. Arguments DSample {V}. Arguments DDone {V}. Arguments DCrash {V}.

Section Disk.
Context {V : Type}.
Variable size : nat.

Definition new_disk (contents : nat -> V) : disk V :=
  mk_disk (fun _ => None) (fun n => n =? 0) (fun s => [(0, contents s)]) (fun n => n =? 0).

Definition start_kind (d : disk V) (r : req V) : dkind V :=
  match r with
  | RRead off len => DRead off len (fun _ => None)
  | RWrite off data => DWrite off data (fun _ => false)
  | RFlush => DFlush (d_done d)
  end.

Definition dissue (n c id : nat) (r : req V) (d : disk V) : disk V :=
  mk_disk (upd (d_ops d) n (Some (mk_dop c id (start_kind d r))))
          (upd (d_used d) n true) (d_hist d) (d_done d).

Definition set_kind (n : nat) (o : dop V) (k : dkind V) (d : disk V) : disk V :=
  mk_disk (upd (d_ops d) n (Some (mk_dop (d_ch o) (d_id o) k))) (d_used d) (d_hist d) (d_done d).

(** All sectors [off, off+len) of the disk satisfy [p] (by index). *)
Definition in_range_all (off len : nat) (p : nat -> bool) : bool :=
  forallb (fun i => negb (off + i <? size) || p i) (seq 0 len).

Definition read_data (len : nat) (got : nat -> option V) : list (option V) := map got (seq 0 len).

Definition is_some {A} (o : option A) : bool := match o with Some _ => true | None => false end.

Definition finish (n : nat) (d : disk V) : disk V :=
  mk_disk (upd (d_ops d) n None) (d_used d) (d_hist d) (d_done d).

(** One step; [None] means the event is not possible in this state. *)
Definition dstep (d : disk V) (e : devent V)
  : option (disk V * list (titem V)) :=
  match e with
  | DIssue n c id r =>
    if d_used d n then None else Some (dissue n c id r d, [TIssue n c id r])
  | DApply n i =>
    match d_ops d n with
    | Some (mk_dop c id (DWrite off data applied)) =>
      match nth_error data i with
      | Some v =>
        if (off + i <? size) && negb (applied i) then
          Some (mk_disk (upd (d_ops d) n (Some (mk_dop c id (DWrite off data (upd applied i true)))))
                        (d_used d) (upd (d_hist d) (off + i) ((n, v) :: d_hist d (off + i)))
                        (d_done d), [])
        else None
      | None => None
      end
    | _ => None
    end
  | DSample n i =>
    match d_ops d n with
    | Some (mk_dop c id (DRead off len got)) =>
      if (off + i <? size) && (i <? len) then
        Some (set_kind n (mk_dop c id (DRead off len got))
                (DRead off len (upd got i (cur (d_hist d (off + i))))) d, [])
      else None
    | _ => None
    end
  | DDone n ok =>
    match d_ops d n with
    | None => None
    | Some (mk_dop c id k) =>
      if ok then
        match k with
        | DRead off len got =>
          if in_range_all off len (fun i => is_some (got i))
          then Some (finish n d, [TDone n c id true (read_data len got)]) else None
        | DWrite off data applied =>
          if in_range_all off (length data) applied
          then Some (mk_disk (upd (d_ops d) n None) (d_used d) (d_hist d) (upd (d_done d) n true),
                     [TDone n c id true []]) else None
        | DFlush snap =>
          Some (mk_disk (upd (d_ops d) n None) (d_used d) (fun s => trim snap (d_hist d s)) (d_done d),
                [TDone n c id true []])
        end
      else Some (finish n d, [TDone n c id false []])
    end
  | DCrash survivor =>
    Some (mk_disk (fun _ => None) (d_used d) (fun s => crashed (d_hist d s) (survivor s)) (d_done d),
          [TCrash])
  end.

Fixpoint drun (d : disk V) (es : list (devent V))
  : option (disk V * list (titem V)) :=
  match es with
  | [] => Some (d, [])
  | e :: r =>
    match dstep d e with
    | None => None
    | Some (d1, t1) =>
      match drun d1 r with
      | None => None
      | Some (d2, t2) => Some (d2, t1 ++ t2)
      end
    end
  end.

(** [disk_behaviour contents tr d]: an ordinary disk that initially holds
    [contents] can show exactly the observable history [tr] and then be in
    state [d]. *)
Definition disk_behaviour (contents : nat -> V) (tr : list (titem V)) (d : disk V) : Prop :=
  exists es, drun (new_disk contents) es = Some (d, tr).

End Disk.
