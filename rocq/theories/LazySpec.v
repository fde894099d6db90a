(** Vocabulary in which the properties of the lazy device are stated. *)
From Coq Require Import List Arith NArith Bool.
Import ListNotations.
From Verif Require Import Base DiskSpec LazyState MetadataModel LazyModel.

Section Spec.
Context {V : Type}.

(** A device whose configuration and metadata fit together: what init-metadata
    produces and the checks at startup ensure.
    [wc_cover] asks that a stripe that is yet to be fetched (it is marked as having
    source data and not as fetched) lies inside the
    source image, or that the source delivers whole stripes and the image is not
    read directly (remote and archive sources).  Without it the property fails,
    see LazyRefuted.v. *)
Record well_configured (c : cfg V) (h : nat -> N) : Prop := {
  wc_ssc : 0 < ssc c;
  wc_hps : 0 < hps c;
  wc_target : forall st, st < nst c -> st * ssc c < target c;
  wc_src_target : src c <= target c;
  wc_src_nst : div_ceil (src c) (ssc c) <= nst c;
  wc_cover : forall x, x < target c -> x / ssc c < nst c ->
     has_flag FLAG_HAS_SOURCE (h (x / ssc c)) = true -> has_flag FLAG_FETCHED (h (x / ssc c)) = false ->
     x < src c \/ (full_stripes c = true /\ has_image c = false);
  wc_fetched : forall st, st < nst c -> has_flag FLAG_FETCHED (h st) = true ->
     has_flag FLAG_HAS_SOURCE (h st) = true
}.

(** What the guest sees at the start: the source's data in stripes that have
    source data and are not marked as fetched, the base device's elsewhere. *)
Definition initial_contents (c : cfg V) (base : nat -> V) (h : nat -> N) (x : nat) : V :=
  let st := x / ssc c in
  if (st <? nst c) && has_flag FLAG_HAS_SOURCE (h st) && negb (has_flag FLAG_FETCHED (h st))
  then image c x else base x.

(** The state reached, and the history observed, after any sequence of events
    from the first start of the device. *)
Definition reached (c : cfg V) (base : nat -> V) (h : nat -> N) (es : list (event V)) : state V :=
  fst (run c (init c base h) es).
Definition history (c : cfg V) (base : nat -> V) (h : nat -> N) (es : list (event V)) : list (titem V) :=
  snd (run c (init c base h) es).

(** The logical contents of the device: what its sectors hold from the guest's
    point of view. *)
Definition logical (c : cfg V) (s : state V) (x : nat) : option V :=
  if released (shf s (x / ssc c)) then cur (bh s x) else Some (image c x).

(** The header found for stripe [st] if the machine crashed now, [pick] telling
    which of the possible versions of each metadata sector survives. *)
Definition stored_header (c : cfg V) (s : state V) (pick : nat -> nat) (st : nat) : N :=
  loaded_headers c (fun g => crashed (mh s g) (pick g)) st.
(** Flag [f] of stripe [st] survives a crash now, whatever that crash does. *)
Definition durable_flag (c : cfg V) (s : state V) (f : N) (st : nat) : Prop :=
  forall pick, has_flag f (stored_header c s pick st) = true.

(** A guest write to sector [x] has been handed to the base device and has not
    completed. *)
Definition guest_writing (s : state V) (x : nat) : Prop :=
  exists n q id off len d ap, ops s n = Some (mk_op (OGuest q id) DBase (KWrite off len d ap)) /\
    off <= x < off + len.
(** The background copy of a stripe to the base device that covers sector [x] is
    in progress. *)
Definition copying (s : state V) (x : nat) : Prop :=
  exists n st dv off len d ap, ops s n = Some (mk_op (OFetch st) dv (KWrite off len d ap)) /\
    off <= x < off + len.

(** Stripe [st] is being fetched: its data is being read, written or flushed. *)
Definition fetching (s : state V) (st : nat) : Prop :=
  fsts s st = Some FFetching \/ fsts s st = Some FFlushing.

(** Is this event something the guest does or sees (a request, a completion, a
    crash, a sector of one of its own operations), as opposed to background
    activity? *)
Definition guest_op (s : state V) (n : nat) : bool :=
  match ops s n with Some (mk_op (OGuest _ _) _ _) => true | _ => false end.
Definition background (s : state V) (e : event V) : bool :=
  match e with
  | EAdd _ _ _ | EFront _ | ETakeFinished _ | ECrash _ _ => false
  | EDone n _ | EApply n _ | ESample n _ => negb (guest_op s n)
  | _ => true
  end.

(** A request that lies within the stripes of the device and is not empty at
    sector 0. *)
Definition in_bounds (c : cfg V) (r : req V) : Prop :=
  match r with
  | RRead off len => 0 < off + len /\ off + len <= nst c * ssc c
  | RWrite off data => 0 < off + length data /\ off + length data <= nst c * ssc c
  | RFlush => True
  end.

End Spec.

(** ** Fetch attempts *)
Section Attempts.
Context {V : Type}.

(** Does this event start an attempt to fetch stripe [st]? *)
Definition attempt (s : state V) (e : event V) (st : nat) : bool :=
  match e with
  | EWStartFetch _ =>
    negb (panic s) && negb (wdone s) &&
    match fq s, favail s with x :: _, _ :: _ => x =? st | _, _ => false end
  | _ => false
  end.
Definition is_crash (e : event V) : bool := match e with ECrash _ _ => true | _ => false end.

(** The number of attempts made for stripe [st] since a fetch of it was last
    requested ([n] before the events [es]). *)
Fixpoint attempts (c : cfg V) (st : nat) (s : state V) (es : list (event V)) (n : nat) : nat :=
  match es with
  | [] => n
  | e :: r =>
    let s' := fst (step c s e) in
    attempts c st s' r
      (if is_crash e then 0
       else match fsts s st with
            | None => if is_some (fsts s' st) then 0 else n
            | Some _ => if attempt s e st then S n else n
            end)
  end.

(** Stripe states that a flag stands for. *)
Definition acknowledged (s : state V) (f : N) (st : nat) : Prop :=
  (f = FLAG_FETCHED /\ shf s st = Fetched) \/ (f = FLAG_WRITTEN /\ shw s st = true).

End Attempts.

(** ** Requests and stripes *)
Section Touch.
Context {V : Type}.

(** Request [r] touches stripe [st]. *)
Definition touches (c : cfg V) (r : req V) (st : nat) : Prop :=
  match r with
  | RRead off len => exists i, i < len /\ (off + i) / ssc c = st
  | RWrite off data => exists i, i < length data /\ (off + i) / ssc c = st
  | RFlush => False
  end.

(** A stripe fetch has an operation in flight: at the source, or on the base
    device (writing or flushing the stripe). *)
Inductive fetch_operation (s : state V) (st : nat) : nat -> Prop :=
| FO_source n b : sops s n = Some (st, b) -> fetch_operation s st n
| FO_base n dv k : ops s n = Some (mk_op (OFetch st) dv k) -> fetch_operation s st n.

(** A metadata sector write is in flight from this buffer. *)
Definition meta_writing (s : state V) (n b : nat) : Prop :=
  exists st g ap, mops s n = Some (MWrite st g b ap).

End Touch.
