(** Vocabulary for statements about what eventually happens: infinite executions
    of the lazy device in which everything that can go on does go on. *)
From Coq Require Import List Arith NArith Bool.
Import ListNotations.
From Verif Require Import Base DiskSpec LazyState MetadataModel LazyModel LazySpec.

Section LiveSpec.
Context {V : Type}.
Variable c : cfg V.

(** The device has just been started, for the first time or after a crash at any
    point of any execution. *)
Definition just_started (base : nat -> V) (h : nat -> N) (s : state V) : Prop :=
  s = init c base h \/ exists es pb pm, s = reached c base h (es ++ [ECrash pb pm]).

(** The state after the first [t] events of the infinite sequence [ev]. *)
Definition at_time (s0 : state V) (ev : nat -> event V) (t : nat) : state V :=
  fst (run c s0 (map ev (seq 0 t))).
(** What is observed at event [t]. *)
Definition seen (s0 : state V) (ev : nat -> event V) (t : nat) : list (titem V) :=
  snd (step c (at_time s0 ev t) (ev t)).

(** Nothing fails for good: requests are within the disk, there is no shutdown or
    crash, operations on the metadata device and the guest's operations on the base
    and image devices succeed, and no stripe is given up (a stripe is given up after
    four failed attempts to fetch it). *)
Record no_permanent_errors (s0 : state V) (ev : nat -> event V) : Prop := {
  ne_add : forall t q id r, ev t = EAdd q id r -> in_bounds c r;
  ne_running : forall t, ev t <> EWShutdown /\ is_crash (ev t) = false;
  ne_meta : forall t n ok, ev t = EWMetaDone n ok -> ok = true;
  ne_guest : forall t n ok, ev t = EDone n ok -> guest_op (at_time s0 ev t) n = true -> ok = true;
  ne_fetch : forall t st, shf (at_time s0 ev t) st <> Failed
}.

(** From every point in time, this happens again later. *)
Definition again (P : nat -> Prop) : Prop := forall t, exists t', t <= t' /\ P t'.

(** The guest queues are polled and the worker's loop runs again and again, and the
    devices and the source complete every operation they are given. *)
Record keeps_running (s0 : state V) (ev : nat -> event V) : Prop := {
  kr_poll : forall q, again (fun t => ev t = EFront q);
  kr_recv : again (fun t => ev t = EWRecv);
  kr_auto : again (fun t => ev t = EWAutofetch);
  kr_start : again (fun t => exists accept, ev t = EWStartFetch accept);
  kr_fin : again (fun t => ev t = EWTakeFinished);
  kr_write : again (fun t => ev t = EWStartWrite);
  kr_disc : again (fun t => ev t = EWDisconnect);
  kr_base : forall n, again (fun t => ops (at_time s0 ev t) n = None);
  kr_source : forall n, again (fun t => sops (at_time s0 ev t) n = None);
  kr_meta : forall n, again (fun t => mops (at_time s0 ev t) n = None)
}.

End LiveSpec.
