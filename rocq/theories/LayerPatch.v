(** Lemmas for LayerProofs.v: the steps of the lazy device do not depend on what is in its
    base device. *)
From Coq Require Import List Arith NArith Bool Lia ZifyBool ZifyNat.
Import ListNotations.
From Verif Require Import Base BaseFacts DiskSpec TraceSpec TraceFacts LazyState MetadataModel LazyModel LazyInv LazyTac
  LazyInvGuest LazyInvFetch LazyInvMeta LazySim LazyInv2 LazyReach LazyRun LazySpec LazyProofs LayerModel.

Section Layer.
Context {V : Type}.
Variable c : cfg V.

(** ** The steps of the lazy device do not look at the base device *)

(** [s] with other progress of its operations, another medium, other buffers. *)
Definition patch (O : nat -> option (op V)) (B : nat -> list (nat * V)) (D : nat -> bool) (F : nat -> nat -> V)
  (s : state V) : state V := set_ops O (set_bh B (set_bdone D (set_bufs F s))).

Definition start_of (bd : nat -> bool) (k : opkind V) : opkind V :=
  match k with
  | KRead off len _ => KRead off len (fun _ => None)
  | KWrite off len d _ => KWrite off len d (fun _ => false)
  | KFlush _ => KFlush bd
  end.

Definition kind_alike (k k' : opkind V) : Prop :=
  match k, k' with
  | KWrite off len d _, KWrite off' len' d' _ => off = off' /\ len = len' /\ d = d'
  | KRead off len _, KRead off' len' _ => off = off' /\ len = len'
  | KFlush _, KFlush _ => True
  | _, _ => False
  end.
Definition op_alike (x y : option (op V)) : Prop :=
  match x, y with
  | None, None => True
  | Some (mk_op o DBase k), Some (mk_op o' DBase k') => o = o' /\ kind_alike k k'
  | Some (mk_op o DImage k), Some (mk_op o' DImage k') => o = o' /\ k = k'
  | _, _ => False
  end.
Definition alike (f g : nat -> option (op V)) : Prop := forall n, op_alike (f n) (g n).

Definition not_base (x : option (op V)) : Prop :=
  match x with Some (mk_op _ DBase _) => False | _ => True end.

(** The data of a new write from a fetch buffer. *)
Definition filled_data (f : nat -> nat -> V) (o : owner) (k : opkind V) : Prop :=
  match o, k with
  | OFetch st, KWrite off len (WBuf b) _ => off = st * ssc c /\ len <= ssc c /\
    forall i, i < ssc c -> full_stripes c = true \/ off + i < src c -> f b i = image c (off + i)
  | OGuest _ _, KWrite _ len (WData l) _ => len = length l
  | _, KWrite _ _ _ _ => False
  | _, _ => True
  end.

(** What a step does to the operations, in the state without and with base; [Fr]:
    the serials that may be used. *)
Inductive moved (Fr : nat -> Prop) (f1 : nat -> nat -> V) (bd D : nat -> bool) (f f' O O' : nat -> option (op V)) : Prop :=
| mv_same : f' = f -> O' = O -> moved Fr f1 bd D f f' O O'
| mv_issue n o k : Fr n -> filled_data f1 o k -> f' = upd f n (Some (mk_op o DBase (start_of bd k))) ->
    O' = upd O n (Some (mk_op o DBase (start_of D k))) -> moved Fr f1 bd D f f' O O'
| mv_image n x : f' = upd f n x -> O' = upd O n x -> not_base x -> not_base (f n) -> moved Fr f1 bd D f f' O O'.

Definition cong (Fr : nat -> Prop) (f : state V -> state V) (s : state V) : Prop := forall O B D F, alike (ops s) O ->
  exists O' F', f (patch O B D F s) = patch O' B D F' (f s) /\ moved Fr (bufs (f s)) (bdone s) D (ops s) (ops (f s)) O O'.

Lemma cong_id Fr s : cong Fr (fun s => s) s.
Proof. intros O B D F H. do 2 eexists. split; [reflexivity|apply mv_same; reflexivity]. Qed.

(** Its projections and updates. *)
Lemma p_chq O B D F s : chq (patch O B D F s) = chq s. Proof. reflexivity. Qed.
Lemma p_chfin O B D F s : chfin (patch O B D F s) = chfin s. Proof. reflexivity. Qed.
Lemma p_chreq O B D F s : chreq (patch O B D F s) = chreq s. Proof. reflexivity. Qed.
Lemma p_shf O B D F s : shf (patch O B D F s) = shf s. Proof. reflexivity. Qed.
Lemma p_shw O B D F s : shw (patch O B D F s) = shw s. Proof. reflexivity. Qed.
Lemma p_cntF O B D F s : cntF (patch O B D F s) = cntF s. Proof. reflexivity. Qed.
Lemma p_cntS O B D F s : cntS (patch O B D F s) = cntS s. Proof. reflexivity. Qed.
Lemma p_mq O B D F s : mq (patch O B D F s) = mq s. Proof. reflexivity. Qed.
Lemma p_wdone O B D F s : wdone (patch O B D F s) = wdone s. Proof. reflexivity. Qed.
Lemma p_fq O B D F s : fq (patch O B D F s) = fq s. Proof. reflexivity. Qed.
Lemma p_fauto O B D F s : fauto (patch O B D F s) = fauto s. Proof. reflexivity. Qed.
Lemma p_fsts O B D F s : fsts (patch O B D F s) = fsts s. Proof. reflexivity. Qed.
Lemma p_fret O B D F s : fret (patch O B D F s) = fret s. Proof. reflexivity. Qed.
Lemma p_fbuf O B D F s : fbuf (patch O B D F s) = fbuf s. Proof. reflexivity. Qed.
Lemma p_ffin O B D F s : ffin (patch O B D F s) = ffin s. Proof. reflexivity. Qed.
Lemma p_fdisc O B D F s : fdisc (patch O B D F s) = fdisc s. Proof. reflexivity. Qed.
Lemma p_favail O B D F s : favail (patch O B D F s) = favail s. Proof. reflexivity. Qed.
Lemma p_fuse O B D F s : fuse (patch O B D F s) = fuse s. Proof. reflexivity. Qed.
Lemma p_hdrs O B D F s : hdrs (patch O B D F s) = hdrs s. Proof. reflexivity. Qed.
Lemma p_mupd O B D F s : mupd (patch O B D F s) = mupd s. Proof. reflexivity. Qed.
Lemma p_msec O B D F s : msec (patch O B D F s) = msec s. Proof. reflexivity. Qed.
Lemma p_mqueue O B D F s : mqueue (patch O B D F s) = mqueue s. Proof. reflexivity. Qed.
Lemma p_mavail O B D F s : mavail (patch O B D F s) = mavail s. Proof. reflexivity. Qed.
Lemma p_muse O B D F s : muse (patch O B D F s) = muse s. Proof. reflexivity. Qed.
Lemma p_mbufs O B D F s : mbufs (patch O B D F s) = mbufs s. Proof. reflexivity. Qed.
Lemma p_next O B D F s : next (patch O B D F s) = next s. Proof. reflexivity. Qed.
Lemma p_sops O B D F s : sops (patch O B D F s) = sops s. Proof. reflexivity. Qed.
Lemma p_mops O B D F s : mops (patch O B D F s) = mops s. Proof. reflexivity. Qed.
Lemma p_mh O B D F s : mh (patch O B D F s) = mh s. Proof. reflexivity. Qed.
Lemma p_mdone O B D F s : mdone (patch O B D F s) = mdone s. Proof. reflexivity. Qed.
Lemma p_slive O B D F s : slive (patch O B D F s) = slive s. Proof. reflexivity. Qed.
Lemma p_panic O B D F s : panic (patch O B D F s) = panic s. Proof. reflexivity. Qed.
Lemma p_ops O B D F s : ops (patch O B D F s) = O. Proof. reflexivity. Qed.
Lemma p_bh O B D F s : bh (patch O B D F s) = B. Proof. reflexivity. Qed.
Lemma p_bdone O B D F s : bdone (patch O B D F s) = D. Proof. reflexivity. Qed.
Lemma p_bufs O B D F s : bufs (patch O B D F s) = F. Proof. reflexivity. Qed.
Lemma p_set_chq x O B D F s : set_chq x (patch O B D F s) = patch O B D F (set_chq x s). Proof. reflexivity. Qed.
Lemma p_set_chfin x O B D F s : set_chfin x (patch O B D F s) = patch O B D F (set_chfin x s). Proof. reflexivity. Qed.
Lemma p_set_chreq x O B D F s : set_chreq x (patch O B D F s) = patch O B D F (set_chreq x s). Proof. reflexivity. Qed.
Lemma p_set_shf x O B D F s : set_shf x (patch O B D F s) = patch O B D F (set_shf x s). Proof. reflexivity. Qed.
Lemma p_set_shw x O B D F s : set_shw x (patch O B D F s) = patch O B D F (set_shw x s). Proof. reflexivity. Qed.
Lemma p_set_cntF x O B D F s : set_cntF x (patch O B D F s) = patch O B D F (set_cntF x s). Proof. reflexivity. Qed.
Lemma p_set_cntS x O B D F s : set_cntS x (patch O B D F s) = patch O B D F (set_cntS x s). Proof. reflexivity. Qed.
Lemma p_set_mq x O B D F s : set_mq x (patch O B D F s) = patch O B D F (set_mq x s). Proof. reflexivity. Qed.
Lemma p_set_wdone x O B D F s : set_wdone x (patch O B D F s) = patch O B D F (set_wdone x s). Proof. reflexivity. Qed.
Lemma p_set_fq x O B D F s : set_fq x (patch O B D F s) = patch O B D F (set_fq x s). Proof. reflexivity. Qed.
Lemma p_set_fauto x O B D F s : set_fauto x (patch O B D F s) = patch O B D F (set_fauto x s). Proof. reflexivity. Qed.
Lemma p_set_fsts x O B D F s : set_fsts x (patch O B D F s) = patch O B D F (set_fsts x s). Proof. reflexivity. Qed.
Lemma p_set_fret x O B D F s : set_fret x (patch O B D F s) = patch O B D F (set_fret x s). Proof. reflexivity. Qed.
Lemma p_set_fbuf x O B D F s : set_fbuf x (patch O B D F s) = patch O B D F (set_fbuf x s). Proof. reflexivity. Qed.
Lemma p_set_ffin x O B D F s : set_ffin x (patch O B D F s) = patch O B D F (set_ffin x s). Proof. reflexivity. Qed.
Lemma p_set_fdisc x O B D F s : set_fdisc x (patch O B D F s) = patch O B D F (set_fdisc x s). Proof. reflexivity. Qed.
Lemma p_set_favail x O B D F s : set_favail x (patch O B D F s) = patch O B D F (set_favail x s). Proof. reflexivity. Qed.
Lemma p_set_fuse x O B D F s : set_fuse x (patch O B D F s) = patch O B D F (set_fuse x s). Proof. reflexivity. Qed.
Lemma p_set_hdrs x O B D F s : set_hdrs x (patch O B D F s) = patch O B D F (set_hdrs x s). Proof. reflexivity. Qed.
Lemma p_set_mupd x O B D F s : set_mupd x (patch O B D F s) = patch O B D F (set_mupd x s). Proof. reflexivity. Qed.
Lemma p_set_msec x O B D F s : set_msec x (patch O B D F s) = patch O B D F (set_msec x s). Proof. reflexivity. Qed.
Lemma p_set_mqueue x O B D F s : set_mqueue x (patch O B D F s) = patch O B D F (set_mqueue x s). Proof. reflexivity. Qed.
Lemma p_set_mavail x O B D F s : set_mavail x (patch O B D F s) = patch O B D F (set_mavail x s). Proof. reflexivity. Qed.
Lemma p_set_muse x O B D F s : set_muse x (patch O B D F s) = patch O B D F (set_muse x s). Proof. reflexivity. Qed.
Lemma p_set_mbufs x O B D F s : set_mbufs x (patch O B D F s) = patch O B D F (set_mbufs x s). Proof. reflexivity. Qed.
Lemma p_set_next x O B D F s : set_next x (patch O B D F s) = patch O B D F (set_next x s). Proof. reflexivity. Qed.
Lemma p_set_sops x O B D F s : set_sops x (patch O B D F s) = patch O B D F (set_sops x s). Proof. reflexivity. Qed.
Lemma p_set_mops x O B D F s : set_mops x (patch O B D F s) = patch O B D F (set_mops x s). Proof. reflexivity. Qed.
Lemma p_set_mh x O B D F s : set_mh x (patch O B D F s) = patch O B D F (set_mh x s). Proof. reflexivity. Qed.
Lemma p_set_mdone x O B D F s : set_mdone x (patch O B D F s) = patch O B D F (set_mdone x s). Proof. reflexivity. Qed.
Lemma p_set_slive x O B D F s : set_slive x (patch O B D F s) = patch O B D F (set_slive x s). Proof. reflexivity. Qed.
Lemma p_set_panic x O B D F s : set_panic x (patch O B D F s) = patch O B D F (set_panic x s). Proof. reflexivity. Qed.
Lemma p_set_ops x O B D F s : set_ops x (patch O B D F s) = patch x B D F s. Proof. reflexivity. Qed.
Lemma p_set_bufs x O B D F s : set_bufs x (patch O B D F s) = patch O B D x s. Proof. reflexivity. Qed.
Lemma a_ops x O B D F s : patch O B D F (set_ops x s) = patch O B D F s. Proof. reflexivity. Qed.
Lemma a_bufs x O B D F s : patch O B D F (set_bufs x s) = patch O B D F s. Proof. reflexivity. Qed.
Lemma c_chreq x y (s : state V) : set_chreq x (set_ops y s) = set_ops y (set_chreq x s). Proof. reflexivity. Qed.
Lemma c_fsts x y (s : state V) : set_fsts x (set_ops y s) = set_ops y (set_fsts x s). Proof. reflexivity. Qed.
Hint Rewrite p_chq p_chfin p_chreq p_shf p_shw p_cntF p_cntS p_mq p_wdone p_fq p_fauto p_fsts p_fret p_fbuf p_ffin p_fdisc p_favail p_fuse p_hdrs p_mupd p_msec p_mqueue p_mavail p_muse p_mbufs p_next p_sops p_mops p_mh p_mdone p_slive p_panic p_ops p_bh p_bdone p_bufs p_set_chq p_set_chfin p_set_chreq p_set_shf p_set_shw p_set_cntF p_set_cntS p_set_mq p_set_wdone p_set_fq p_set_fauto p_set_fsts p_set_fret p_set_fbuf p_set_ffin p_set_fdisc p_set_favail p_set_fuse p_set_hdrs p_set_mupd p_set_msec p_set_mqueue p_set_mavail p_set_muse p_set_mbufs p_set_next p_set_sops p_set_mops p_set_mh p_set_mdone p_set_slive p_set_panic p_set_ops p_set_bufs a_ops a_bufs c_chreq c_fsts : pat.

Ltac pnorm := unfold enqueue, fail_req, issue, start_flush; autorewrite with pat.
Ltac prefl := pnorm; reflexivity.

Ltac same := do 2 eexists; split; [prefl|apply mv_same; reflexivity].

Lemma ssf_patch q sts : forall s O B D F,
  start_stripe_fetches c q sts (patch O B D F s) =
  (patch O B D F (fst (start_stripe_fetches c q sts s)), snd (start_stripe_fetches c q sts s)).
Proof.
  induction sts as [|st r IH]; intros; cbn [start_stripe_fetches]; [reflexivity|].
  autorewrite with pat.
  destruct (st <? nst c); [|reflexivity]. destruct (negb (released (shf s st)) && negb (chreq s q st)); [|apply IH].
  destruct (wdone s); [reflexivity|]. autorewrite with pat. apply IH.
Qed.
Lemma ssw_patch sts : forall s O B D F,
  start_stripe_set_written c sts (patch O B D F s) =
  (patch O B D F (fst (start_stripe_set_written c sts s)), snd (start_stripe_set_written c sts s)).
Proof.
  induction sts as [|st r IH]; intros; cbn [start_stripe_set_written]; [reflexivity|].
  autorewrite with pat.
  destruct (st <? nst c); [|reflexivity]. destruct (shw s st); [apply IH|].
  destruct (wdone s); [reflexivity|]. autorewrite with pat. apply IH.
Qed.
Lemma ssf_ops q sts s : ops (fst (start_stripe_fetches c q sts s)) = ops s.
Proof. destruct (ssf_frame c q sts s) as (cr & l & ->). reflexivity. Qed.
Lemma ssw_ops sts s : ops (fst (start_stripe_set_written c sts s)) = ops s.
Proof. destruct (ssw_frame c sts s) as (l & ->). reflexivity. Qed.

Lemma fetch_status_patch s O B D F sts : fetch_status c (patch O B D F s) sts = fetch_status c s sts.
Proof. induction sts; cbn [fetch_status]; [reflexivity|]. autorewrite with pat. now rewrite IHsts. Qed.
Lemma written_patch s O B D F sts : stripes_written c (patch O B D F s) sts = stripes_written c s sts.
Proof. induction sts; cbn [stripes_written]; [reflexivity|]. autorewrite with pat. now rewrite IHsts. Qed.

Lemma cong_queue_write n q id off data Fr s : cong Fr (queue_write c n q id off data) s.
Proof.
  intros O B D F H. unfold queue_write. rewrite ssf_patch. cbv zeta.
  pose proof (ssf_ops q (stripes_of c off (length data)) s) as E.
  destruct (start_stripe_fetches c q (stripes_of c off (length data)) s) as [s1 r1]. cbn [fst snd] in *.
  rewrite ssw_patch. pose proof (ssw_ops (stripes_of c off (length data)) s1) as E1.
  destruct (start_stripe_set_written c (stripes_of c off (length data)) s1) as [s2 r2]. cbn [fst snd] in *.
  pose proof (eq_trans E1 E) as E2. clear E1.
  destruct r1; [destruct (track c); [destruct r2|]| |]; (do 2 eexists; split; [prefl|apply mv_same; [first [exact E2|exact E]|reflexivity]]).
Qed.

Lemma cong_issue n q id r (Fr : nat -> Prop) s : Fr n -> cong Fr (issue n q id DBase r) s.
Proof.
  intros Hf.
  intros O B D F H. do 2 eexists. split; [prefl|].
  apply (mv_issue _ _ _ _ _ _ _ _ n (OGuest q id) (start_op_kind r s)); auto; destruct r; try reflexivity; exact I.
Qed.

Lemma cong_add_read n q id off len (Fr : nat -> Prop) s : Fr n -> not_base (ops s n) -> cong Fr (add_read c n q id off len) s.
Proof.
  intros Hf Hn O B D F H. unfold add_read. rewrite fetch_status_patch, ssf_patch. cbv zeta.
  pose proof (ssf_ops q (stripes_of c off len) s) as E.
  destruct (start_stripe_fetches c q (stripes_of c off len) s) as [s1 r1]. cbn [fst snd] in *.
  destruct (fetch_status c s (stripes_of c off len)).
  - destruct ((stripe_first c off =? stripe_last c off len) && has_image c).
    + do 2 eexists. split; [prefl|]. eapply mv_image; try reflexivity; auto.
    + destruct r1; (do 2 eexists; split; [prefl|apply mv_same; [exact E|reflexivity]]).
  - apply cong_issue; auto.
  - same.
  - same.
Qed.

Lemma cong_add_write n q id off data (Fr : nat -> Prop) s : Fr n -> cong Fr (add_write c n q id off data) s.
Proof.
  intros Hf.
  intros O B D F H. unfold add_write. rewrite fetch_status_patch, written_patch. cbv zeta.
  destruct (fetch_status c s (stripes_of c off (length data))).
  - apply cong_queue_write; auto.
  - destruct (track c); [destruct (stripes_written c s (stripes_of c off (length data))) as [[|]|]|].
    + apply cong_issue; auto.
    + apply cong_queue_write; auto.
    + same.
    + apply cong_issue; auto.
  - same.
  - same.
Qed.

Lemma cong_add_req q id r (Fr : nat -> Prop) s : Fr (next s) -> not_base (ops s (next s)) -> cong Fr (add_req c q id r) s.
Proof.
  intros Hf Hn O B D F H. unfold add_req.
  autorewrite with pat. cbv zeta.
  change (ops s) with (ops (set_next (S (next s)) s)). change (bdone s) with (bdone (set_next (S (next s)) s)).
  destruct r; [apply cong_add_read; auto|apply cong_add_write; auto|apply cong_issue; auto].
Qed.

Lemma cong_process_front q (Fr : nat -> Prop) s : (forall r, In r (chq s q) -> Fr (rq_serial r)) -> cong Fr (process_front c q) s.
Proof.
  intros Hf O B D F H. unfold process_front. autorewrite with pat.
  destruct (chq s q) as [|r l]; [same|]. specialize (Hf r (or_introl eq_refl)). rewrite fetch_status_patch, written_patch. cbv zeta.
  Ltac go r q s := do 2 eexists; split; [prefl|];
    apply (mv_issue _ _ _ _ _ _ _ _ (rq_serial r) (OGuest q (rq_id r)) (start_op_kind (rq_req r) s)); auto;
    destruct (rq_req r); try reflexivity; exact I.
  destruct (fetch_status c s (req_stripes c (rq_req r))); try same.
  destruct (track c && is_write (rq_req r)); [|go r q s].
  destruct (stripes_written c s (req_stripes c (rq_req r))) as [[|]|]; [go r q s| |]; same.
Qed.

Lemma return_fbuf_patch b s O B D F : return_fbuf b (patch O B D F s) = patch O B D F (return_fbuf b s).
Proof. unfold return_fbuf. autorewrite with pat. destruct (_ && _); reflexivity. Qed.
Lemma return_fbuf_ops b (s : state V) : ops (return_fbuf b s) = ops s.
Proof. unfold return_fbuf. destruct (_ && _); reflexivity. Qed.
Lemma fetch_completed_patch st ok s O B D F :
  fetch_completed c st ok (patch O B D F s) = patch O B D F (fetch_completed c st ok s).
Proof.
  unfold fetch_completed. autorewrite with pat. destruct (fbuf s st) as [b|].
  - autorewrite with pat.
    rewrite return_fbuf_patch. set (s1 := return_fbuf b (set_fbuf (upd (fbuf s) st None) s)). cbv zeta.
    autorewrite with pat.
    destruct ok; [prefl|]. destruct (_ <? _); [prefl|]. destruct (_ <? _); prefl.
  - cbv zeta. autorewrite with pat.
    destruct ok; [prefl|]. destruct (_ <? _); [prefl|]. destruct (_ <? _); prefl.
Qed.
Lemma fetch_completed_ops st ok s : ops (fetch_completed c st ok s) = ops s.
Proof.
  unfold fetch_completed. destruct (fbuf s st) as [b|].
  - set (s1 := return_fbuf b (set_fbuf (upd (fbuf s) st None) s)). cbv zeta.
    assert (E : ops s1 = ops s) by exact (return_fbuf_ops b (set_fbuf (upd (fbuf s) st None) s)).
    destruct ok; [exact E|]. destruct (_ <? _); [exact E|]. destruct (_ <? _); exact E.
  - cbv zeta. destruct ok; [reflexivity|]. destruct (_ <? _); [reflexivity|]. destruct (_ <? _); reflexivity.
Qed.

Lemma handle_fetch_patch st s O B D F : handle_fetch_request c st (patch O B D F s) = patch O B D F (handle_fetch_request c st s).
Proof.
  unfold handle_fetch_request. autorewrite with pat.
  destruct (st <? nst c); [|reflexivity]. destruct (released (shf s st)); [reflexivity|]. destruct (fsts s st); reflexivity.
Qed.
Lemma handle_fetch_ops st s : ops (handle_fetch_request c st s) = ops s.
Proof.
  unfold handle_fetch_request.
  destruct (st <? nst c); [|reflexivity]. destruct (released (shf s st)); [reflexivity|]. destruct (fsts s st); reflexivity.
Qed.

Lemma cong_update_autofetch Fr s : cong Fr (update_autofetch c) s.
Proof.
  intros O B D F H. unfold update_autofetch. autorewrite with pat.
  destruct (autofetch c); [|same]. destruct (fq s); [|same]. destruct (fauto s) as [|st r]; [same|].
  autorewrite with pat. rewrite handle_fetch_patch.
  do 2 eexists. split; [prefl|]. apply mv_same; [|reflexivity]. rewrite handle_fetch_ops; reflexivity.
Qed.

Lemma cong_worker_recv Fr s : cong Fr (worker_recv c) s.
Proof.
  intros O B D F H. unfold worker_recv. autorewrite with pat.
  destruct (mq s) as [|[st|st] r]; [same| |same].
  autorewrite with pat. rewrite handle_fetch_patch.
  do 2 eexists. split; [prefl|]. apply mv_same; [|reflexivity]. rewrite handle_fetch_ops; reflexivity.
Qed.

Lemma cong_start_fetch a Fr s : cong Fr (start_fetch c a) s.
Proof.
  intros O B D F H. unfold start_fetch. autorewrite with pat.
  destruct (fq s) as [|st q]; [same|]. destruct (favail s) as [|b av]; [same|]. cbv zeta.
  autorewrite with pat.
  set (s1 := set_fbuf (upd (fbuf s) st (Some b)) (set_fuse (upd (fuse s) b true) (set_favail av (set_fq q s)))).
  change (source_accepts c a st (patch O B D F s1)) with (source_accepts c a st s1).
  destruct (source_accepts c a st s1); [same|]. rewrite fetch_completed_patch.
  do 2 eexists. split; [prefl|]. apply mv_same; [|reflexivity]. rewrite fetch_completed_ops; reflexivity.
Qed.

Lemma cong_start_write st b (Fr : nat -> Prop) s : Fr (next s) ->
  (forall i, i < ssc c -> full_stripes c = true \/ st * ssc c + i < src c -> bufs s b i = image c (st * ssc c + i)) ->
  cong Fr (start_write c st b) s.
Proof.
  intros Hf Hd O B D F H. unfold start_write. destruct (target c <? st * ssc c); [same|]. cbv zeta.
  do 2 eexists. split; [prefl|].
  apply (mv_issue _ _ _ _ _ _ _ _ (next s) (OFetch st)
    (KWrite (st * ssc c) (Nat.min (ssc c) (target c - st * ssc c)) (WBuf b) (fun _ => false))); try reflexivity; auto.
  cbn [filled_data]. split; [reflexivity|]. split; [lia|]. exact Hd.
Qed.

Lemma cong_src_done n ok (Fr : nat -> Prop) s : Fr (next s) -> (forall st b, sops s n = Some (st, b) -> fbuf s st = Some b) ->
  cong Fr (src_done c n ok) s.
Proof.
  intros Hf Hs O B D F H. unfold src_done. autorewrite with pat.
  destruct (sops s n) as [[st b]|]; [|same]. specialize (Hs st b eq_refl). cbv zeta.
  autorewrite with pat.
  set (s1 := set_sops (upd (sops s) n None) s).
  destruct ok.
  - set (s2 := set_bufs (upd (bufs s1) b (filled c st (bufs s1 b))) s1). autorewrite with pat.
    replace (patch O B D (upd F b (filled c st (F b))) s1) with (patch O B D (upd F b (filled c st (F b))) s2) by apply a_bufs.
    change (fbuf s1 st) with (fbuf s st). change (bdone s) with (bdone s2). change (ops s) with (ops s2). change (fbuf s2 st) with (fbuf s st). rewrite Hs.
    apply cong_start_write; [exact Hf| |exact H].
    intros i Hi Hfu. change (bufs s2) with (upd (bufs s) b (filled c st (bufs s b))). unfold upd. rewrite Nat.eqb_refl.
    unfold filled. destruct (Nat.ltb_spec i (ssc c)); [|lia]. cbn [andb].
    destruct (Nat.ltb_spec (st * ssc c + i) (src c)); [rewrite orb_true_r; reflexivity|].
    destruct Hfu as [->|]; [reflexivity|lia].
  - autorewrite with pat. destruct (fbuf s1 st) as [b'|]; [|same]. rewrite fetch_completed_patch.
    do 2 eexists. split; [prefl|]. apply mv_same; [|reflexivity]. exact (fetch_completed_ops st false s1).
Qed.

Lemma cong_take_finished_fetches Fr s : cong Fr (take_finished_fetches) s.
Proof. intros O B D F H. unfold take_finished_fetches. same. Qed.

Lemma cong_start_meta_write Fr s : cong Fr (start_meta_write c) s.
Proof.
  intros O B D F H. unfold start_meta_write. rewrite p_mqueue, p_mavail.
  destruct (mqueue s) as [|[st k] q]; [same|]. destruct (mavail s) as [|b av]; [same|]. rewrite p_msec, p_set_mqueue, p_hdrs. cbv zeta.
  destruct (existsb _ _); [same|].
  destruct (st <? nst c); [|same].
  destruct (has_flag (mask_of k) (hdrs (set_mqueue q s) st)); same.
Qed.

Lemma ssh_patch st h s O B D F : set_stripe_header c st h (patch O B D F s) = patch O B D F (set_stripe_header c st h s).
Proof.
  unfold set_stripe_header. autorewrite with pat. destruct (st <? nst c); [|reflexivity]. cbv zeta.
  destruct (has_flag FLAG_FETCHED h); [destruct (released (shf s st))|]; destruct (has_flag FLAG_WRITTEN h); prefl.
Qed.
Lemma ssh_ops st h s : ops (set_stripe_header c st h s) = ops s.
Proof.
  unfold set_stripe_header. destruct (st <? nst c); [|reflexivity]. cbv zeta.
  destruct (has_flag FLAG_FETCHED h); [destruct (released (shf s st))|]; destruct (has_flag FLAG_WRITTEN h); reflexivity.
Qed.
Lemma return_mbuf_patch b s O B D F : return_mbuf b (patch O B D F s) = patch O B D F (return_mbuf b s).
Proof. unfold return_mbuf. autorewrite with pat. destruct (_ && _); reflexivity. Qed.
Lemma return_mbuf_ops b (s : state V) : ops (return_mbuf b s) = ops s.
Proof. unfold return_mbuf. destruct (_ && _); reflexivity. Qed.

Lemma meta_completion_patch st ok s O B D F : meta_completion c st ok (patch O B D F s) = patch O B D F (meta_completion c st ok s).
Proof.
  unfold meta_completion. autorewrite with pat. destruct (mupd s st) as [u|]; [|reflexivity].
  destruct ok; [destruct (u_stage u)|].
  - unfold meta_written. rewrite return_mbuf_patch. autorewrite with pat. reflexivity.
  - unfold meta_flushed. cbv zeta.
    autorewrite with pat. apply ssh_patch.
  - unfold meta_failed. cbv zeta.
    autorewrite with pat. rewrite return_mbuf_patch. destruct (u_stage u); autorewrite with pat; reflexivity.
Qed.
Lemma meta_completion_ops st ok s : ops (meta_completion c st ok s) = ops s.
Proof.
  unfold meta_completion. destruct (mupd s st) as [u|]; [|reflexivity].
  destruct ok; [destruct (u_stage u)|].
  - unfold meta_written. cbn. apply return_mbuf_ops.
  - unfold meta_flushed. cbv zeta. rewrite ssh_ops. reflexivity.
  - unfold meta_failed. cbv zeta. sred. destruct (u_stage u); [rewrite return_mbuf_ops|]; reflexivity.
Qed.

Lemma cong_meta_done n ok Fr s : cong Fr (meta_done c n ok) s.
Proof.
  intros O B D F H. unfold meta_done. autorewrite with pat.
  destruct (mops s n) as [[st g b ap|st snap]|]; [|cbv zeta|same].
  - destruct (ok && negb ap); [same|]. cbv zeta.
    autorewrite with pat.
    destruct ok; rewrite meta_completion_patch; (do 2 eexists; split; [prefl|apply mv_same; [|reflexivity]]);
      rewrite meta_completion_ops; reflexivity.
  - autorewrite with pat.
    destruct ok; rewrite meta_completion_patch; (do 2 eexists; split; [prefl|apply mv_same; [|reflexivity]]);
      rewrite meta_completion_ops; reflexivity.
Qed.

Lemma cong_meta_apply n Fr s : cong Fr (meta_apply n) s.
Proof.
  intros O B D F H. unfold meta_apply. autorewrite with pat.
  destruct (mops s n) as [[st g b [|]|]|]; same.
Qed.

Lemma cong_scribble n i v Fr s : cong Fr (scribble n i v) s.
Proof.
  intros O B D F H. unfold scribble. autorewrite with pat.
  destruct (sops s n) as [[st b]|]; same.
Qed.

Lemma target_busy_patch s O B D F : alike (ops s) O -> target_busy (patch O B D F s) = target_busy s.
Proof.
  intros H. unfold target_busy. autorewrite with pat. change (ops (patch O B D F s)) with O.
  induction (seq 0 (next s)) as [|n l IH]; [reflexivity|]. cbn [existsb]. rewrite IH. f_equal.
  specialize (H n). unfold op_alike in H. destruct (ops s n) as [[o [|] k]|], (O n) as [[o' [|] k']|]; try contradiction; auto;
    destruct H as [-> _]; reflexivity.
Qed.
Lemma cong_disconnect Fr s : cong Fr (disconnect) s.
Proof.
  intros O B D F H. unfold disconnect, fetcher_busy. rewrite (target_busy_patch s O B D F H).
  autorewrite with pat.
  destruct (_ && _); same.
Qed.


Lemma cong_tgt_done st ok (Fr : nat -> Prop) s : Fr (next s) -> cong Fr (tgt_done c st ok) s.
Proof.
  intros Hf O B D F H. unfold tgt_done. autorewrite with pat.
  assert (G : forall b, exists O' F', fetch_completed c st b (patch O B D F s) = patch O' B D F' (fetch_completed c st b s) /\
    moved Fr (bufs (fetch_completed c st b s)) (bdone s) D (ops s) (ops (fetch_completed c st b s)) O O').
  { intros b. rewrite fetch_completed_patch. do 2 eexists. split; [prefl|]. apply mv_same; [|reflexivity]. rewrite fetch_completed_ops; reflexivity. }
  destruct ok; [|apply G]. destruct (fsts s st) as [[| | |]|]; try same; [|apply G]. cbv zeta.
  do 2 eexists. split; [prefl|].
  apply (mv_issue _ _ _ _ _ _ _ _ (next s) (OFetch st) (KFlush (bdone s))); try reflexivity; auto.
Qed.

(** What the step needs to know about the state. *)
Record known (s : state V) : Prop := {
  kn_new : not_base (ops s (next s));
  kn_sop : forall n st b, sops s n = Some (st, b) -> fbuf s st = Some b;
  kn_image : forall n o k, ops s n = Some (mk_op o DImage k) -> exists q id off len got, o = OGuest q id /\ k = KRead off len got
}.
Definition fresh (s : state V) (n : nat) : Prop := n = next s \/ exists q r, In r (chq s q) /\ rq_serial r = n.

(** All events of the lazy device itself. *)
Lemma step_cong s e O B D F : alike (ops s) O -> known s -> own s e = true ->
  exists O' F', fst (step c (patch O B D F s) e) = patch O' B D F' (fst (step c s e)) /\
    snd (step c (patch O B D F s) e) = snd (step c s e) /\
    moved (fresh s) (bufs (fst (step c s e))) (bdone s) D (ops s) (ops (fst (step c s e))) O O'.
Proof.
  intros H [Kn Ks Ki] Ho. unfold step. rewrite p_panic.
  assert (L : forall f, cong (fresh s) f s -> exists O' F', f (patch O B D F s) = patch O' B D F' (f s) /\ @nil (titem V) = [] /\
     moved (fresh s) (bufs (f s)) (bdone s) D (ops s) (ops (f s)) O O').
  { intros f Hf. destruct (Hf O B D F H) as (O' & F' & A & M). exists O', F'. auto. }
  assert (W : forall f, cong (fresh s) f s -> exists O' F', worker f (patch O B D F s) = patch O' B D F' (worker f s) /\ @nil (titem V) = [] /\
     moved (fresh s) (bufs (worker f s)) (bdone s) D (ops s) (ops (worker f s)) O O').
  { intros f Hf. unfold worker. rewrite p_wdone.
    destruct (wdone s); [exact (L _ (cong_id _ _))|exact (L f Hf)]. }
  assert (Fn : fresh s (next s)) by (left; reflexivity).
  destruct (panic s).
  { destruct e; try exact (L _ (cong_id _ _)); discriminate. }
  destruct e as [q id r|q|q|n ok|n i|n i|n i v|n| | | |a|n ok| | |n ok| |pb pm]; cbn [fst snd].
  - destruct (cong_add_req q id r (fresh s) s Fn Kn O B D F H) as (O' & F' & A & M). exists O', F'. auto.
  - apply L, cong_process_front. intros r Hr. right. eauto.
  - do 2 eexists. split; [prefl|]. split; [reflexivity|]. apply mv_same; reflexivity.
  - cbn [own] in Ho. unfold op_done. change (ops (patch O B D F s)) with O. specialize (H n) as Hop. unfold op_alike in Hop.
    destruct (ops s n) as [[o [|] k]|] eqn:En; try discriminate.
    destruct (O n) as [[o' [|] k']|] eqn:EO; try contradiction. destruct Hop as [<- <-].
    destruct (Ki _ _ _ En) as (q & id & off & len & got & -> & ->).
    destruct (ok && negb (completable c DImage (KRead off len got))).
    { destruct (L _ (cong_id _ _)) as (O' & F' & A & _ & M). exists O', F'. auto. }
    exists (upd O n None), F. split; [destruct ok; reflexivity|]. split; [reflexivity|].
    apply (mv_image _ _ _ _ _ _ _ _ n None); [destruct ok; reflexivity|reflexivity|exact I|rewrite En; exact I].
  - discriminate.
  - cbn [own] in Ho. unfold read_sample. change (ops (patch O B D F s)) with O. specialize (H n) as Hop. unfold op_alike in Hop.
    destruct (ops s n) as [[o [|] k]|] eqn:En; try discriminate.
    destruct (O n) as [[o' [|] k']|] eqn:EO; try contradiction. destruct Hop as [<- <-].
    destruct k as [|off len got|]; try exact (L _ (cong_id _ _)).
    destruct ((i <? len) && (off + i <? dev_size c DImage)); [|exact (L _ (cong_id _ _))].
    do 2 eexists. split; [prefl|]. split; [reflexivity|].
    eapply mv_image; try reflexivity. rewrite En; exact I.
  - apply L, cong_scribble.
  - apply L, cong_meta_apply.
  - apply W, cong_worker_recv.
  - do 2 eexists. split; [prefl|]. split; [reflexivity|]. apply mv_same; reflexivity.
  - apply W, cong_update_autofetch.
  - apply W, cong_start_fetch.
  - apply W, cong_src_done; auto. intros; eapply Ks; eauto.
  - apply W, cong_take_finished_fetches.
  - apply W, cong_start_meta_write.
  - apply W, cong_meta_done.
  - apply W, cong_disconnect.
  - discriminate.
Qed.

End Layer.
