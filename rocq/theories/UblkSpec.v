(** Vocabulary for the statements about the ublk handler. *)
From Coq Require Import List NArith ZArith Arith Bool.
From Verif Require Import Base TrackerModel UblkModel.
Import ListNotations.
Local Open Scope N_scope.

(** How often tag [t] was handed over by the driver. *)
Definition handed_n (t : nat) (es : list hevent) : nat :=
  length (filter (fun e => match e with EHandle tgt tag _ _ _ _ _ => negb tgt && (tag =? t)%nat | _ => false end) es).

(** The completions of tag [t], and how many there are. *)
Definition for_tag (t : nat) (l : list (nat * ures * list byte)) : list (nat * ures * list byte) :=
  filter (fun c => (fst (fst c) =? t)%nat) l.
Definition completed_n (t : nat) (s : hstate) : nat := length (for_tag t (h_done s)).

(** Requests with tag [t] that are neither completed nor forgotten. *)
Definition inflight_n (t : nat) (s : hstate) : nat :=
  match nth_error (h_inflight s) t with Some (Some _) => 1 | _ => 0 end.
Definition pending_n (t : nat) (l : list ureq) : nat :=
  length (filter (fun r => (q_tag r =? t)%nat) l).
Definition owned_n (t : nat) (s : hstate) : nat := (pending_n t (h_pending s) + inflight_n t s)%nat.

(** The operations sent to the channel for tag [t]. *)
Definition op_tag (o : chop) : nat :=
  match o with ChRead _ _ t => t | ChWrite _ _ t _ => t | ChFlush t => t end.
Definition ops_for (t : nat) (l : list chop) : list chop := filter (fun o => (op_tag o =? t)%nat) l.

(** What has to be sent to the channel for a request. *)
Definition forwarded (r : ureq) (d : list byte) : list chop :=
  match q_op r with
  | OpRead => [ChRead (q_sector r) (q_count r) (q_tag r)]
  | OpWrite => [ChWrite (q_sector r) (q_count r) (q_tag r) (firstn (N.to_nat (q_bytes r)) d)]
  | OpFlush => [ChFlush (q_tag r)]
  | OpUnsupported => []
  end.

(** The driver's side: it hands over a tag only while the handler does not hold it, the
    tag is below the queue depth, the buffer has the agreed size; and it calls the
    handler only when the handler is not running.  The handler's loop runs exactly
    while it is draining.  The channel stores at most a buffer's worth of data. *)
Definition driver_ok (max : N) (n : nat) (s : hstate) (e : hevent) : Prop :=
  match e with
  | EHandle tgt tag d _ _ _ _ => h_draining s = false /\
      (tgt = false -> (tag < n)%nat /\ owned_n tag s = 0%nat /\ N.of_nat (length d) = max)
  | EIter _ _ ps => h_draining s = true /\
      Forall (fun p => N.of_nat (length (snd p)) <= max) ps
  end.

(** The channel's side, when no submit fails: it is busy exactly while it has not
    answered everything. *)
Definition channel_ok (s : hstate) (e : hevent) : Prop :=
  match e with
  | EIter busy ok _ => ok = true /\ (busy = false -> h_chan s = [])
  | _ => True
  end.

(** [P] holds of every state and event of a run. *)
Fixpoint along (max : N) (P : hstate -> hevent -> Prop) (s : hstate) (es : list hevent) : Prop :=
  match es with
  | [] => True
  | e :: r => P s e /\ (forall s1, hstep max s e = Ok s1 -> along max P s1 r)
  end.

(** The handler holds request [r] (not yet answered) and the driver's buffer for it
    contains [d]. *)
Definition waiting (r : ureq) (d : list byte) (s : hstate) : Prop :=
  In r (h_pending s) /\ nth_error (h_bufs s) (q_tag r) = Some d.
Definition issued (r : ureq) (d : list byte) (s : hstate) : Prop :=
  nth_error (h_inflight s) (q_tag r) = Some (Some r) /\ nth_error (h_bufs s) (q_tag r) = Some d.

(** [rs] with buffer contents [b] is the right answer to request [r], whose buffer
    contained [d], in view of what the channel reported in event [e]. *)
Definition answers (e : hevent) (r : ureq) (d : list byte) (rs : ures) (b : list byte) : Prop :=
  match e with
  | EHandle _ _ _ _ _ _ _ => False
  | EIter _ ok ps =>
    (rs = UInval /\ b = d /\
      (q_op r = OpUnsupported \/ ok = false \/ exists data, In (q_tag r, false, data) ps)) \/
    (exists data, In (q_tag r, true, data) ps /\
      match q_op r with
      | OpRead => rs = UResult (Z.of_N (q_bytes r)) /\
                  (N.of_nat (length data) = q_bytes r -> b = data ++ skipn (N.to_nat (q_bytes r)) d)
      | OpWrite => rs = UResult (Z.of_N (q_bytes r)) /\ b = d
      | OpFlush => rs = UResult 0 /\ b = d
      | OpUnsupported => False
      end)
  end.
