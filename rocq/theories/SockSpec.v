(** What access to a socket means, in the terms of chmod(1). *)
From Coq Require Import NArith Bool.
Local Open Scope N_scope.

(** The bits of a mode, counted from the right: "others" are bits 0, 1 and 2, the
    group bits 3 to 5, the owner bits 6 to 8.  A user who is neither the owner nor in
    the group may connect when bit 1 (write) is set. *)
Definition nothing_for_others (m : N) : Prop :=
  N.testbit m 0 = false /\ N.testbit m 1 = false /\ N.testbit m 2 = false.

Definition nothing_executable (m : N) : Prop :=
  N.testbit m 0 = false /\ N.testbit m 3 = false /\ N.testbit m 6 = false.

(** rw for the owner, rw for the group, nothing else. *)
Definition rw_rw_none (m : N) : Prop :=
  forall b, N.testbit m b = true <-> b = 4 \/ b = 5 \/ b = 7 \/ b = 8.
