(** What it means that no wake-up is lost between a driver and a backend thread (C75). *)
From Coq Require Import List NArith Bool.
From Verif Require Import KickModel.
Import ListNotations.
Local Open Scope N_scope.

(** The backend thread sleeps and nothing will wake it. *)
Definition backend_stuck (s : kstate) : Prop := k_pc s = Asleep /\ k_kick s = false.

(** The driver has told the device all it has to tell: it has looked whether to kick since
    it last published a request. *)
Definition driver_told (s : kstate) : Prop := k_kicked s = k_avail s.

(** The driver waits for an interrupt, and none is on its way. *)
Definition driver_stuck (s : kstate) : Prop := k_cb s = Waiting /\ k_irq s = false.

(** The history has no chain that cannot be parsed. *)
Definition well_formed (es : list kevent) : Prop := ~ List.In (BPop BadChain) es.

(** Between two looks at the interrupts ([BSignal]) fewer than [limit] requests are
    answered at once, without going through the device's channel. *)
Fixpoint few_at_once (limit n : N) (es : list kevent) : Prop :=
  match es with
  | [] => True
  | BSignal :: r => few_at_once limit 0 r
  | BPop AtOnce :: r => n + 1 < limit /\ few_at_once limit (n + 1) r
  | _ :: r => few_at_once limit n r
  end.
