(** Model of the notifications between the guest's driver and a vhost backend thread:
    src/backends/vhost/backend.rs [handle_event] and backend_thread.rs [process_queue], over
    the rust-vmm queue (virtio-queue crate) and event loop (vhost-user-backend crate), whose
    documented behaviour is used.  Both sides run concurrently; every access to the shared
    rings is a step of its own (memory is sequentially consistent: the crate puts the fences
    the virtio standard asks for).

    Requests are counted, not distinguished: their contents are in VhostModel.v.  The
    16-bit ring indices are kept as totals, and compared modulo 2^16 as the code does.
    Not modelled: failing accesses to guest memory (an error of enable_notification ends
    handle_event), the front end's starting, stopping and disabling of rings. *)
From Coq Require Import List NArith Bool.
Import ListNotations.
Local Open Scope N_scope.

Definition W16 : N := 65536.
Definition same16 (a b : N) : bool := a mod W16 =? b mod W16.
(** Wrapping subtraction of 16-bit numbers. *)
Definition sub16 (a b : N) : N := (a mod W16 + W16 - b mod W16) mod W16.

(** Where the backend thread is.  [PPop busy] ...: in [process_queue]; [busy]: its local
    variable. *)
Inductive pass :=
| PEnable                 (* about to call enable_notification, backend.rs:228-233 *)
| PPop (busy : bool)      (* backend_thread.rs:390-418, the loop over available chains *)
| PPoll (busy : bool)     (* backend_thread.rs:422, poll_io *)
| PSignal (busy : bool)   (* backend_thread.rs:425-442, needs_signalling is computed *)
| PRaise (busy : bool)    (* backend_thread.rs:444-449, about to signal *)
| PReturn (busy : bool).  (* backend_thread.rs:451 *)

(** [In false p]: in the polling loop of backend.rs:209-220; [In true p]: behind it
    (backend.rs:222-241). *)
Inductive where_ := Asleep | In (final : bool) (p : pass).

(** The driver's interrupts: off; switched on but used ring not yet checked again; waiting
    for one. *)
Inductive callbacks := Off | Enabling | Waiting.

Record kstate := mk_kstate {
  (* in shared memory *)
  k_avail : N;        (* requests published by the driver (avail.idx) *)
  k_avail_event : N;  (* written by the device *)
  k_used : N;         (* requests answered (used.idx) *)
  k_used_event : N;   (* written by the driver *)
  k_kick : bool;      (* the driver's eventfd is readable *)
  k_irq : bool;       (* the device's signal is on its way *)
  (* the backend thread *)
  k_pc : where_;
  k_next : N;         (* next_avail: chains taken *)
  k_flight : N;       (* requests the channel has not reported *)
  k_added : N;        (* num_added, 16 bits *)
  k_pend : bool;      (* ios_pending_signal *)
  (* the driver *)
  k_kicked : N;       (* k_avail when it last looked whether to kick *)
  k_seen : N;         (* answers it has taken from the used ring *)
  k_cb : callbacks
}.

(** How a chain is answered: by the channel later; at once (device id, unsupported types,
    bad lengths: [complete_io]); at once because it cannot be parsed
    ([complete_bad_chain], backend_thread.rs:62-70). *)
Inductive answer := Later | AtOnce | BadChain.

Inductive kevent :=
(* backend thread *)
| BWake                    (* epoll returns, the event loop reads the eventfd *)
| BEnable
| BPop (a : answer)
| BComplete                (* poll_io handles one completion *)
| BPolled                  (* poll_io is through; [busy = busy || io_channel.busy()] *)
| BSignal
| BRaise
| BReturn (elapsed : bool) (* process_queue returns; has poll_timeout_us passed? *)
(* driver *)
| GAdd                     (* publish one request *)
| GKick                    (* look whether to kick, and kick *)
| GTake                    (* take one answer from the used ring *)
| GScribble (v : N)        (* with interrupts off the driver may leave anything in used_event *)
| GEnable                  (* switch interrupts on *)
| GCheck                   (* look at the used ring once more before waiting *)
| GIrq.                    (* an interrupt is delivered *)

Definition is_zero (n : N) : bool := n =? 0.

Section Queue.
Variable event_idx : bool.  (* VIRTIO_RING_F_EVENT_IDX negotiated *)
Variable qsize : N.

Definition set_pc (p : where_) (s : kstate) : kstate :=
  mk_kstate (k_avail s) (k_avail_event s) (k_used s) (k_used_event s) (k_kick s) (k_irq s)
    p (k_next s) (k_flight s) (k_added s) (k_pend s) (k_kicked s) (k_seen s) (k_cb s).

(** virtio-queue [add_used]: one more in the used ring, [num_added += 1]; [pend]: is
    ios_pending_signal set (backend_thread.rs:188). *)
Definition add_used (pend : bool) (s : kstate) : kstate :=
  mk_kstate (k_avail s) (k_avail_event s) (k_used s + 1) (k_used_event s) (k_kick s) (k_irq s)
    (k_pc s) (k_next s) (k_flight s) ((k_added s + 1) mod W16) (pend || k_pend s)
    (k_kicked s) (k_seen s) (k_cb s).

Definition set_next_flight (n f : N) (s : kstate) : kstate :=
  mk_kstate (k_avail s) (k_avail_event s) (k_used s) (k_used_event s) (k_kick s) (k_irq s)
    (k_pc s) n f (k_added s) (k_pend s) (k_kicked s) (k_seen s) (k_cb s).

(** virtio-queue [needs_notification] with EVENT_IDX: is [used_event] among the last
    [num_added] entries; [num_added = 0]. *)
Definition needs_notification (s : kstate) : bool :=
  sub16 (sub16 (k_used s) (k_used_event s)) 1 <? k_added s.
Definition clear_added (s : kstate) : kstate :=
  mk_kstate (k_avail s) (k_avail_event s) (k_used s) (k_used_event s) (k_kick s) (k_irq s)
    (k_pc s) (k_next s) (k_flight s) 0 (k_pend s) (k_kicked s) (k_seen s) (k_cb s).

(** The driver's test (virtio standard 2.7.10, Linux vring_need_event). *)
Definition driver_kicks (s : kstate) : bool :=
  if event_idx
  then sub16 (sub16 (k_avail s) (k_avail_event s)) 1 <? sub16 (k_avail s) (k_kicked s)
  else true.   (* the device never sets VRING_USED_F_NO_NOTIFY *)

(** The driver's side of the standard: at most [qsize] requests outstanding, at most
    2^16 - 1 additions between two kicks. *)
Definition may_add (s : kstate) : bool :=
  (k_avail s - k_seen s <? qsize) && (k_avail s - k_kicked s <? W16 - 1).

Definition kstep (s : kstate) (e : kevent) : option kstate :=
  match e, k_pc s with
  | BWake, Asleep =>
    if k_kick s then
      Some (mk_kstate (k_avail s) (k_avail_event s) (k_used s) (k_used_event s) false (k_irq s)
              (In false (PPop false)) (k_next s) (k_flight s) (k_added s) (k_pend s)
              (k_kicked s) (k_seen s) (k_cb s))
    else None
  (* backend.rs:227-237; what enable_notification returns is ignored *)
  | BEnable, In true PEnable =>
    Some (mk_kstate (k_avail s) (k_next s mod W16) (k_used s) (k_used_event s) (k_kick s) (k_irq s)
            (In true (PPop false)) (k_next s) (k_flight s) (k_added s) (k_pend s)
            (k_kicked s) (k_seen s) (k_cb s))
  (* backend_thread.rs:390-418; virtio-queue reads avail.idx for every chain *)
  | BPop a, In f (PPop b) =>
    if same16 (k_avail s) (k_next s) then Some (set_pc (In f (PPoll b)) s)
    else
      Some (set_pc (In f (PPop true))
        (match a with
         | Later => set_next_flight (k_next s + 1) (k_flight s + 1) s
         | AtOnce => add_used true (set_next_flight (k_next s + 1) (k_flight s) s)
         | BadChain => add_used false (set_next_flight (k_next s + 1) (k_flight s) s)
         end))
  (* backend_thread.rs:227-249 poll_io *)
  | BComplete, In f (PPoll b) =>
    if is_zero (k_flight s) then None
    else Some (add_used true (set_next_flight (k_next s) (k_flight s - 1) s))
  | BPolled, In f (PPoll b) =>
    Some (set_pc (In f (PSignal (b || negb (is_zero (k_flight s))))) s)
  | BSignal, In f (PSignal b) =>
    if k_pend s then
      if event_idx then
        Some (set_pc (In f (if needs_notification s then PRaise b else PReturn b)) (clear_added s))
      else Some (set_pc (In f (PRaise b)) s)
    else Some (set_pc (In f (PReturn b)) s)
  | BRaise, In f (PRaise b) =>
    Some (mk_kstate (k_avail s) (k_avail_event s) (k_used s) (k_used_event s) (k_kick s) true
            (In f (PReturn b)) (k_next s) (k_flight s) (k_added s) false
            (k_kicked s) (k_seen s) (k_cb s))
  (* backend.rs:209-241 *)
  | BReturn elapsed, In false (PReturn b) =>
    if b || negb elapsed then Some (set_pc (In false (PPop false)) s)
    else Some (set_pc (In true (if event_idx then PEnable else PPop false)) s)
  | BReturn _, In true (PReturn b) =>
    Some (set_pc (if event_idx && b then In true PEnable else Asleep) s)
  | GAdd, _ =>
    if may_add s then
      Some (mk_kstate (k_avail s + 1) (k_avail_event s) (k_used s) (k_used_event s) (k_kick s) (k_irq s)
              (k_pc s) (k_next s) (k_flight s) (k_added s) (k_pend s) (k_kicked s) (k_seen s) (k_cb s))
    else None
  | GKick, _ =>
    Some (mk_kstate (k_avail s) (k_avail_event s) (k_used s) (k_used_event s)
            (driver_kicks s || k_kick s) (k_irq s)
            (k_pc s) (k_next s) (k_flight s) (k_added s) (k_pend s) (k_avail s) (k_seen s) (k_cb s))
  | GTake, _ =>
    match k_cb s with
    | Off =>
      if same16 (k_used s) (k_seen s) then None
      else Some (mk_kstate (k_avail s) (k_avail_event s) (k_used s) (k_used_event s) (k_kick s) (k_irq s)
                   (k_pc s) (k_next s) (k_flight s) (k_added s) (k_pend s) (k_kicked s) (k_seen s + 1) Off)
    | _ => None
    end
  | GScribble v, _ =>
    match k_cb s with
    | Off => Some (mk_kstate (k_avail s) (k_avail_event s) (k_used s) (v mod W16) (k_kick s) (k_irq s)
                     (k_pc s) (k_next s) (k_flight s) (k_added s) (k_pend s) (k_kicked s) (k_seen s) Off)
    | _ => None
    end
  | GEnable, _ =>
    match k_cb s with
    | Off => Some (mk_kstate (k_avail s) (k_avail_event s) (k_used s) (k_seen s mod W16) (k_kick s) (k_irq s)
                     (k_pc s) (k_next s) (k_flight s) (k_added s) (k_pend s) (k_kicked s) (k_seen s) Enabling)
    | _ => None
    end
  | GCheck, _ =>
    match k_cb s with
    | Enabling =>
      Some (mk_kstate (k_avail s) (k_avail_event s) (k_used s) (k_used_event s) (k_kick s) (k_irq s)
              (k_pc s) (k_next s) (k_flight s) (k_added s) (k_pend s) (k_kicked s) (k_seen s)
              (if same16 (k_used s) (k_seen s) then Waiting else Off))
    | _ => None
    end
  | GIrq, _ =>
    if k_irq s then
      Some (mk_kstate (k_avail s) (k_avail_event s) (k_used s) (k_used_event s) (k_kick s) false
              (k_pc s) (k_next s) (k_flight s) (k_added s) (k_pend s) (k_kicked s) (k_seen s)
              (match k_cb s with Waiting => Off | x => x end))
    else None
  | _, _ => None
  end.

Fixpoint krun (s : kstate) (es : list kevent) : option kstate :=
  match es with
  | [] => Some s
  | e :: r => match kstep s e with Some s' => krun s' r | None => None end
  end.

(** The start: the rings are empty and zero. *)
Definition kinit : kstate := mk_kstate 0 0 0 0 false false Asleep 0 0 0 false 0 0 Off.
End Queue.
