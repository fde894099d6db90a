(** Vocabulary for C69 and C70: what an offline tool should find. *)
From Coq Require Import List Arith NArith Bool.
Import ListNotations.
From Verif Require Import Base DiskSpec MetadataModel LazyModel LazySpec.

(** Stripe [st] of an ordinary disk (DiskSpec.v) whose stripes have [n] sectors,
    as bytes. *)
Definition stripe_of_disk {V} (enc : V -> list byte) (n : nat) (d : disk V) (st : nat) : list byte :=
  concat (map (fun x => match cur (d_hist d x) with Some v => enc v | None => [] end) (seq (st * n) n)).

(** Every write to stripe [st] in this history was reported successful. *)
Definition writes_succeeded {V} (c : cfg V) (hist : list (titem V)) (st : nat) : Prop :=
  forall n q id off data, In (TIssue n q id (RWrite off data)) hist -> touches c (RWrite off data) st ->
    exists d, In (TDone n q id true d) hist.

(** The device is made of whole stripes. *)
Definition whole_stripes {V} (c : cfg V) : Prop := target c = nst c * ssc c.

(** The sectors the guest finds on the local disk at the start, in stripes without
    source data that are not marked as written, are zeros. *)
Definition fresh_disk {V} (enc : V -> list byte) (c : cfg V) (base : nat -> V) (h : nat -> N) : Prop :=
  forall x, x < target c -> N.testbit (h (x / ssc c)) 2 = false (* HAS_SOURCE *) ->
    N.testbit (h (x / ssc c)) 1 = false (* WRITTEN *) -> enc (base x) = repeat 0%N 512.

(** The device does not start out with a stripe that is marked as written although
    its data is still in the source only. *)
Definition none_half_written {V} (c : cfg V) (h : nat -> N) : Prop :=
  forall st, st < nst c -> N.testbit (h st) 1 = true -> N.testbit (h st) 2 = true -> N.testbit (h st) 0 = true.

(** No write of zero sectors. *)
Definition no_empty_writes {V} (es : list (event V)) : Prop :=
  forall q id off data, In (EAdd q id (RWrite off data)) es -> data <> [].
