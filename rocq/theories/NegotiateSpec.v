(** What a virtio block driver is entitled to conclude about the device's cache.

    Virtio 1.2, 5.2.4 and 5.2.6.2: if CONFIG_WCE (bit 11) was negotiated, the byte
    [writeback] (offset 32 of the configuration space) tells the mode, 0 for write-through;
    otherwise the cache is write-back if FLUSH (bit 9) was negotiated, and if it was not,
    a completed write has to be on stable storage. *)
From Coq Require Import List NArith Bool.
From Verif Require Import Base.
Import ListNotations.
Local Open Scope N_scope.

(** The driver may accept any of the offered features, and no others. *)
Definition negotiated (offered acked : N) : Prop :=
  forall b, N.testbit acked b = true -> N.testbit offered b = true.

Inductive cache_mode := WriteThrough | WriteBack.

Definition cache_understood (acked : N) (writeback : byte) : cache_mode :=
  if N.testbit acked 11 then (if writeback =? 0 then WriteThrough else WriteBack)
  else if N.testbit acked 9 then WriteBack else WriteThrough.
