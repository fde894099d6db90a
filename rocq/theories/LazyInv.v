(** The invariant of the lazy-device model: one definition per clause. *)
From Coq Require Import List Arith NArith Bool Lia ZifyBool ZifyNat.
Import ListNotations.
From Verif Require Import Base BaseFacts DiskSpec LazyState MetadataModel LazyModel.

Section Inv.
Context {V : Type}.
Variable c : cfg V.
(** [hsrc st]: stripe [st] has source data. *)
Variable hsrc : nat -> bool.

(** Requirements on a device and its metadata: what init-metadata produces
    (backends/common/mod.rs:331-438) and BgWorker::new checks
    (stripe_fetcher.rs:68-75, metadata_flusher.rs:62-72). *)
Record wf : Prop := {
  wf_ssc : 0 < ssc c;
  wf_hps : 0 < hps c;
  wf_target : forall st, st < nst c -> st * ssc c < target c;
  wf_src_target : src c <= target c;
  wf_src_nst : div_ceil (src c) (ssc c) <= nst c
}.

Definition rel (s : state V) (st : nat) : Prop := released (shf s st) = true.

(** sector [x] of the base device belongs to stripe [st] *)
Definition in_stripe (st x : nat) : Prop := x / ssc c = st /\ x < target c.

(** ** freshness of serials *)
Definition N_pos (s : state V) : Prop := 0 < next s.
Definition N_ops (s : state V) : Prop := forall n o, ops s n = Some o -> n < next s.
Definition N_sops (s : state V) : Prop := forall n o, sops s n = Some o -> n < next s.
Definition N_mops (s : state V) : Prop := forall n o, mops s n = Some o -> n < next s.
Definition N_bd (s : state V) : Prop := forall n, bdone s n = true -> n < next s.

(** ** fetcher *)
Definition F_queue (s : state V) : Prop :=
  NoDup (fq s) /\ forall st, In st (fq s) <-> fsts s st = Some FQueued.
Definition F_range (s : state V) : Prop :=
  forall st f, fsts s st = Some f -> st < nst c /\ hsrc st = true.
Definition F_unrel (s : state V) : Prop :=
  forall st f, fsts s st = Some f -> f <> FFetched -> released (shf s st) = false.
Definition F_buf (s : state V) : Prop :=
  forall st b, fbuf s st = Some b ->
    (fsts s st = Some FFetching \/ fsts s st = Some FFlushing) /\
    fuse s b = true /\ b < MAX_CONCURRENT_FETCHES.
Definition F_bufinj (s : state V) : Prop :=
  forall st st' b, fbuf s st = Some b -> fbuf s st' = Some b -> st = st'.
Definition F_pool (s : state V) : Prop :=
  NoDup (favail s) /\ forall b, In b (favail s) -> fuse s b = false /\ b < MAX_CONCURRENT_FETCHES.
Definition F_sop (s : state V) : Prop :=
  forall n st b, sops s n = Some (st, b) -> fsts s st = Some FFetching /\ fbuf s st = Some b.
Definition F_op (s : state V) : Prop :=
  forall n st dv k, ops s n = Some (mk_op (OFetch st) dv k) -> dv = DBase /\
    match k with
    | KWrite off len d _ => off = st * ssc c /\ len = Nat.min (ssc c) (target c - off) /\
        (exists b, d = WBuf b /\ fbuf s st = Some b) /\ fsts s st = Some FFetching
    | KFlush _ => fsts s st = Some FFlushing
    | KRead _ _ _ => False
    end.
Definition F_uniq_sop (s : state V) : Prop :=
  forall n m st b b', sops s n = Some (st, b) -> sops s m = Some (st, b') -> n = m.
Definition F_uniq_op (s : state V) : Prop :=
  forall n m st dv dv' k k', ops s n = Some (mk_op (OFetch st) dv k) ->
    ops s m = Some (mk_op (OFetch st) dv' k') -> n = m.
Definition F_uniq (s : state V) : Prop :=
  forall n m st b dv k, sops s n = Some (st, b) -> ops s m <> Some (mk_op (OFetch st) dv k).
Definition F_ret (s : state V) : Prop := forall st, fret s st <= MAX_FETCH_RETRIES.
Definition F_fin (s : state V) : Prop :=
  forall st, In (st, true) (ffin s) -> fsts s st = Some FFetched.
Definition F_auto (s : state V) : Prop := forall st, In st (fauto s) -> st < nst c.
Definition F_mq (s : state V) : Prop :=
  forall st, In (BFetch st) (mq s) \/ In (BSetWritten st) (mq s) -> st < nst c.

(** ** fetched data *)
Definition D_buf (s : state V) : Prop :=
  forall n st dv off len b ap,
    ops s n = Some (mk_op (OFetch st) dv (KWrite off len (WBuf b) ap)) ->
    forall i, i < len -> bufs s b i = image c (off + i).
Definition D_applied (s : state V) : Prop :=
  forall n st dv off len d ap,
    ops s n = Some (mk_op (OFetch st) dv (KWrite off len d ap)) ->
    forall i, i < len -> ap i = true -> exists l, bh s (off + i) = (n, image c (off + i)) :: l.
Definition D_flush (s : state V) : Prop :=
  forall n st dv snap, ops s n = Some (mk_op (OFetch st) dv (KFlush snap)) ->
    exists w, snap w = true /\
      forall x, in_stripe st x -> exists l, bh s x = (w, image c x) :: l.
Definition durable (s : state V) (st : nat) : Prop :=
  forall x, in_stripe st x -> exists w, bh s x = [(w, image c x)].
Definition D_fetched (s : state V) : Prop :=
  forall st, fsts s st = Some FFetched -> released (shf s st) = true \/ durable s st.

(** ** metadata *)
Definition M_nonempty (s : state V) : Prop := forall g, mh s g <> [].
Definition M_src (s : state V) : Prop :=
  forall st, st < nst c -> has_flag FLAG_HAS_SOURCE (hdrs s st) = hsrc st /\
    forall e, In e (mh s (group_of c st)) -> has_flag FLAG_HAS_SOURCE (snd e st) = hsrc st.
Definition M_shf (s : state V) : Prop :=
  forall st, (st < nst c -> match shf s st with
                            | NoSource => hsrc st = false
                            | _ => hsrc st = true
                            end) /\ (nst c <= st -> shf s st = NoSource).
(** the source has all of the stripes that are yet to be fetched *)
Definition Cover (s : state V) : Prop :=
  forall x, x < target c -> x / ssc c < nst c -> hsrc (x / ssc c) = true -> released (shf s (x / ssc c)) = false ->
    x < src c \/ (full_stripes c = true /\ has_image c = false).
Definition M_safe (s : state V) : Prop :=
  forall st, st < nst c ->
    (has_flag FLAG_FETCHED (hdrs s st) = true \/
     exists e, In e (mh s (group_of c st)) /\ has_flag FLAG_FETCHED (snd e st) = true) ->
    hsrc st = true /\ (released (shf s st) = true \/ fsts s st = Some FFetched).
Definition M_queue (s : state V) : Prop :=
  forall st k, In (st, k) (mqueue s) -> st < nst c /\ (k = SetFetched -> fsts s st = Some FFetched).
Definition M_ackF (s : state V) : Prop :=
  forall st, shf s st = Fetched ->
    has_flag FLAG_FETCHED (hdrs s st) = true /\
    forall e, In e (mh s (group_of c st)) -> has_flag FLAG_FETCHED (snd e st) = true.
Definition M_ackW (s : state V) : Prop :=
  forall st, shw s st = true -> st < nst c /\
    has_flag FLAG_WRITTEN (hdrs s st) = true /\
    forall e, In e (mh s (group_of c st)) -> has_flag FLAG_WRITTEN (snd e st) = true.
Definition M_upd (s : state V) : Prop :=
  forall st u, mupd s st = Some u ->
    st < nst c /\ u_sector u = group_of c st /\ In (group_of c st) (msec s) /\
    u_header u = hdrs s st /\ has_flag (u_mask u) (hdrs s st) = true /\
    (u_mask u = FLAG_FETCHED /\ shf s st <> Fetched \/ u_mask u = FLAG_WRITTEN /\ shw s st = false).
Definition M_upd_uniq (s : state V) : Prop :=
  forall st st' u u', mupd s st = Some u -> mupd s st' = Some u' ->
    group_of c st = group_of c st' -> st = st'.
Definition M_sec (s : state V) : Prop :=
  forall g, In g (msec s) -> exists st u, mupd s st = Some u /\ group_of c st = g.
Definition M_ubuf (s : state V) : Prop :=
  forall st u, mupd s st = Some u -> u_stage u = MWriting ->
    muse s (u_buf u) = true /\ u_buf u < MAX_CONCURRENT_CHANGES.
Definition M_ubufinj (s : state V) : Prop :=
  forall st st' u u', mupd s st = Some u -> mupd s st' = Some u' ->
    u_stage u = MWriting -> u_stage u' = MWriting -> u_buf u = u_buf u' -> st = st'.
Definition M_pool (s : state V) : Prop :=
  NoDup (mavail s) /\ forall b, In b (mavail s) -> muse s b = false /\ b < MAX_CONCURRENT_CHANGES.
Definition agrees (g : nat) (v h : nat -> N) : Prop :=
  forall st, st < nst c -> group_of c st = g -> v st = h st.
Definition M_write (s : state V) : Prop :=
  forall n st g b ap, mops s n = Some (MWrite st g b ap) ->
    g = group_of c st /\
    (exists u, mupd s st = Some u /\ u_stage u = MWriting /\ u_buf u = b) /\
    agrees g (mbufs s b) (hdrs s) /\
    (ap = true -> exists v l, mh s g = (n, v) :: l /\ agrees g v (hdrs s)).
Definition M_flush (s : state V) : Prop :=
  forall n st snap, mops s n = Some (MFlush st snap) ->
    (exists u, mupd s st = Some u /\ u_stage u = MFlushing) /\
    exists w v l, snap w = true /\ mh s (group_of c st) = (w, v) :: l /\
      agrees (group_of c st) v (hdrs s).
Definition mop_stripe (o : mop) : nat := match o with MWrite st _ _ _ => st | MFlush st _ => st end.
Definition M_uniq (s : state V) : Prop :=
  forall n m o o', mops s n = Some o -> mops s m = Some o' -> mop_stripe o = mop_stripe o' -> n = m.

(** ** guest operations *)
Definition touch_ok (s : state V) (w : bool) (off len : nat) : Prop :=
  forall i, i < len -> released (shf s ((off + i) / ssc c)) = true /\
    (w = true -> track c = true -> shw s ((off + i) / ssc c) = true).
Definition G_op (s : state V) : Prop :=
  forall n q id dv k, ops s n = Some (mk_op (OGuest q id) dv k) ->
    match dv, k with
    | DBase, KWrite off len d _ => (exists l, d = WData l /\ len = length l) /\ touch_ok s true off len
    | DBase, KRead off len _ => touch_ok s false off len
    | DBase, KFlush _ => True
    | DImage, KRead _ _ _ => has_image c = true
    | DImage, _ => False
    end.
Definition G_queue (s : state V) : Prop :=
  forall q r, In r (chq s q) -> rq_req r <> RFlush.

Record Inv (s : state V) : Prop := {
  i_N_pos : N_pos s; i_N_ops : N_ops s; i_N_sops : N_sops s; i_N_mops : N_mops s; i_N_bd : N_bd s;
  i_F_queue : F_queue s; i_F_range : F_range s; i_F_unrel : F_unrel s; i_F_buf : F_buf s;
  i_F_bufinj : F_bufinj s; i_F_pool : F_pool s; i_F_sop : F_sop s; i_F_op : F_op s;
  i_F_uniq_sop : F_uniq_sop s; i_F_uniq_op : F_uniq_op s; i_F_uniq : F_uniq s; i_F_ret : F_ret s;
  i_F_fin : F_fin s; i_F_auto : F_auto s; i_F_mq : F_mq s;
  i_D_buf : D_buf s; i_D_applied : D_applied s; i_D_flush : D_flush s; i_D_fetched : D_fetched s;
  i_M_nonempty : M_nonempty s; i_M_src : M_src s; i_M_shf : M_shf s; i_M_safe : M_safe s;
  i_M_queue : M_queue s; i_M_ackF : M_ackF s; i_M_ackW : M_ackW s; i_M_upd : M_upd s;
  i_M_upd_uniq : M_upd_uniq s; i_M_sec : M_sec s; i_M_ubuf : M_ubuf s; i_M_ubufinj : M_ubufinj s;
  i_M_pool : M_pool s; i_M_write : M_write s; i_M_flush : M_flush s; i_M_uniq : M_uniq s;
  i_G_op : G_op s; i_G_queue : G_queue s;
  i_cover : Cover s
}.

End Inv.

(** Discharge the clauses a step does not touch. *)
Ltac frame HI :=
  lazymatch goal with
  | |- N_pos _ => exact (i_N_pos _ _ _ HI)
  | |- N_ops _ => exact (i_N_ops _ _ _ HI)
  | |- N_sops _ => exact (i_N_sops _ _ _ HI)
  | |- N_mops _ => exact (i_N_mops _ _ _ HI)
  | |- N_bd _ => exact (i_N_bd _ _ _ HI)
  | |- F_queue _ => exact (i_F_queue _ _ _ HI)
  | |- F_range _ _ _ => exact (i_F_range _ _ _ HI)
  | |- F_unrel _ => exact (i_F_unrel _ _ _ HI)
  | |- F_buf _ => exact (i_F_buf _ _ _ HI)
  | |- F_bufinj _ => exact (i_F_bufinj _ _ _ HI)
  | |- F_pool _ => exact (i_F_pool _ _ _ HI)
  | |- F_sop _ => exact (i_F_sop _ _ _ HI)
  | |- F_op _ _ => exact (i_F_op _ _ _ HI)
  | |- F_uniq_sop _ => exact (i_F_uniq_sop _ _ _ HI)
  | |- F_uniq_op _ => exact (i_F_uniq_op _ _ _ HI)
  | |- F_uniq _ => exact (i_F_uniq _ _ _ HI)
  | |- F_ret _ => exact (i_F_ret _ _ _ HI)
  | |- F_fin _ => exact (i_F_fin _ _ _ HI)
  | |- F_auto _ _ => exact (i_F_auto _ _ _ HI)
  | |- F_mq _ _ => exact (i_F_mq _ _ _ HI)
  | |- D_buf _ _ => exact (i_D_buf _ _ _ HI)
  | |- D_applied _ _ => exact (i_D_applied _ _ _ HI)
  | |- D_flush _ _ => exact (i_D_flush _ _ _ HI)
  | |- D_fetched _ _ => exact (i_D_fetched _ _ _ HI)
  | |- M_nonempty _ => exact (i_M_nonempty _ _ _ HI)
  | |- M_src _ _ _ => exact (i_M_src _ _ _ HI)
  | |- M_shf _ _ _ => exact (i_M_shf _ _ _ HI)
  | |- M_safe _ _ _ => exact (i_M_safe _ _ _ HI)
  | |- M_queue _ _ => exact (i_M_queue _ _ _ HI)
  | |- M_ackF _ _ => exact (i_M_ackF _ _ _ HI)
  | |- M_ackW _ _ => exact (i_M_ackW _ _ _ HI)
  | |- M_upd _ _ => exact (i_M_upd _ _ _ HI)
  | |- M_upd_uniq _ _ => exact (i_M_upd_uniq _ _ _ HI)
  | |- M_sec _ _ => exact (i_M_sec _ _ _ HI)
  | |- M_ubuf _ => exact (i_M_ubuf _ _ _ HI)
  | |- M_ubufinj _ => exact (i_M_ubufinj _ _ _ HI)
  | |- M_pool _ => exact (i_M_pool _ _ _ HI)
  | |- M_write _ _ => exact (i_M_write _ _ _ HI)
  | |- M_flush _ _ => exact (i_M_flush _ _ _ HI)
  | |- M_uniq _ => exact (i_M_uniq _ _ _ HI)
  | |- G_op _ _ => exact (i_G_op _ _ _ HI)
  | |- G_queue _ => exact (i_G_queue _ _ _ HI)
  | |- Cover _ _ _ => exact (i_cover _ _ _ HI)
  end.
