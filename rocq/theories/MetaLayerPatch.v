(** Lemmas for MetaLayerProofs.v: the steps of the lazy device do not depend on what is
    on its metadata device. *)
From Coq Require Import List Arith NArith Bool Lia ZifyBool ZifyNat.
Import ListNotations.
From Verif Require Import Base BaseFacts DiskSpec LazyState MetadataModel LazyModel LayerModel MetaLayerModel.

Section Layer.
Context {V : Type}.
Variable c : cfg V.

(** [s] with other operations on the metadata device, another medium and other buffers. *)
Definition mpatch (M : nat -> option mop) (H : nat -> list (nat * (nat -> N))) (D : nat -> bool) (B : nat -> nat -> N)
  (s : state V) : state V := set_mops M (set_mh H (set_mdone D (set_mbufs B s))).

Lemma q_chq M H D B s : chq (mpatch M H D B s) = chq s. Proof. reflexivity. Qed.
Lemma q_chfin M H D B s : chfin (mpatch M H D B s) = chfin s. Proof. reflexivity. Qed.
Lemma q_chreq M H D B s : chreq (mpatch M H D B s) = chreq s. Proof. reflexivity. Qed.
Lemma q_shf M H D B s : shf (mpatch M H D B s) = shf s. Proof. reflexivity. Qed.
Lemma q_shw M H D B s : shw (mpatch M H D B s) = shw s. Proof. reflexivity. Qed.
Lemma q_cntF M H D B s : cntF (mpatch M H D B s) = cntF s. Proof. reflexivity. Qed.
Lemma q_cntS M H D B s : cntS (mpatch M H D B s) = cntS s. Proof. reflexivity. Qed.
Lemma q_mq M H D B s : mq (mpatch M H D B s) = mq s. Proof. reflexivity. Qed.
Lemma q_wdone M H D B s : wdone (mpatch M H D B s) = wdone s. Proof. reflexivity. Qed.
Lemma q_fq M H D B s : fq (mpatch M H D B s) = fq s. Proof. reflexivity. Qed.
Lemma q_fauto M H D B s : fauto (mpatch M H D B s) = fauto s. Proof. reflexivity. Qed.
Lemma q_fsts M H D B s : fsts (mpatch M H D B s) = fsts s. Proof. reflexivity. Qed.
Lemma q_fret M H D B s : fret (mpatch M H D B s) = fret s. Proof. reflexivity. Qed.
Lemma q_fbuf M H D B s : fbuf (mpatch M H D B s) = fbuf s. Proof. reflexivity. Qed.
Lemma q_ffin M H D B s : ffin (mpatch M H D B s) = ffin s. Proof. reflexivity. Qed.
Lemma q_fdisc M H D B s : fdisc (mpatch M H D B s) = fdisc s. Proof. reflexivity. Qed.
Lemma q_favail M H D B s : favail (mpatch M H D B s) = favail s. Proof. reflexivity. Qed.
Lemma q_fuse M H D B s : fuse (mpatch M H D B s) = fuse s. Proof. reflexivity. Qed.
Lemma q_hdrs M H D B s : hdrs (mpatch M H D B s) = hdrs s. Proof. reflexivity. Qed.
Lemma q_mupd M H D B s : mupd (mpatch M H D B s) = mupd s. Proof. reflexivity. Qed.
Lemma q_msec M H D B s : msec (mpatch M H D B s) = msec s. Proof. reflexivity. Qed.
Lemma q_mqueue M H D B s : mqueue (mpatch M H D B s) = mqueue s. Proof. reflexivity. Qed.
Lemma q_mavail M H D B s : mavail (mpatch M H D B s) = mavail s. Proof. reflexivity. Qed.
Lemma q_muse M H D B s : muse (mpatch M H D B s) = muse s. Proof. reflexivity. Qed.
Lemma q_mbufs M H D B s : mbufs (mpatch M H D B s) = B. Proof. reflexivity. Qed.
Lemma q_next M H D B s : next (mpatch M H D B s) = next s. Proof. reflexivity. Qed.
Lemma q_sops M H D B s : sops (mpatch M H D B s) = sops s. Proof. reflexivity. Qed.
Lemma q_mops M H D B s : mops (mpatch M H D B s) = M. Proof. reflexivity. Qed.
Lemma q_mh M H D B s : mh (mpatch M H D B s) = H. Proof. reflexivity. Qed.
Lemma q_mdone M H D B s : mdone (mpatch M H D B s) = D. Proof. reflexivity. Qed.
Lemma q_slive M H D B s : slive (mpatch M H D B s) = slive s. Proof. reflexivity. Qed.
Lemma q_panic M H D B s : panic (mpatch M H D B s) = panic s. Proof. reflexivity. Qed.
Lemma q_ops M H D B s : ops (mpatch M H D B s) = ops s. Proof. reflexivity. Qed.
Lemma q_bh M H D B s : bh (mpatch M H D B s) = bh s. Proof. reflexivity. Qed.
Lemma q_bdone M H D B s : bdone (mpatch M H D B s) = bdone s. Proof. reflexivity. Qed.
Lemma q_bufs M H D B s : bufs (mpatch M H D B s) = bufs s. Proof. reflexivity. Qed.
Lemma q_set_chq x M H D B s : set_chq x (mpatch M H D B s) = mpatch M H D B (set_chq x s). Proof. reflexivity. Qed.
Lemma q_set_chfin x M H D B s : set_chfin x (mpatch M H D B s) = mpatch M H D B (set_chfin x s). Proof. reflexivity. Qed.
Lemma q_set_chreq x M H D B s : set_chreq x (mpatch M H D B s) = mpatch M H D B (set_chreq x s). Proof. reflexivity. Qed.
Lemma q_set_shf x M H D B s : set_shf x (mpatch M H D B s) = mpatch M H D B (set_shf x s). Proof. reflexivity. Qed.
Lemma q_set_shw x M H D B s : set_shw x (mpatch M H D B s) = mpatch M H D B (set_shw x s). Proof. reflexivity. Qed.
Lemma q_set_cntF x M H D B s : set_cntF x (mpatch M H D B s) = mpatch M H D B (set_cntF x s). Proof. reflexivity. Qed.
Lemma q_set_cntS x M H D B s : set_cntS x (mpatch M H D B s) = mpatch M H D B (set_cntS x s). Proof. reflexivity. Qed.
Lemma q_set_mq x M H D B s : set_mq x (mpatch M H D B s) = mpatch M H D B (set_mq x s). Proof. reflexivity. Qed.
Lemma q_set_wdone x M H D B s : set_wdone x (mpatch M H D B s) = mpatch M H D B (set_wdone x s). Proof. reflexivity. Qed.
Lemma q_set_fq x M H D B s : set_fq x (mpatch M H D B s) = mpatch M H D B (set_fq x s). Proof. reflexivity. Qed.
Lemma q_set_fauto x M H D B s : set_fauto x (mpatch M H D B s) = mpatch M H D B (set_fauto x s). Proof. reflexivity. Qed.
Lemma q_set_fsts x M H D B s : set_fsts x (mpatch M H D B s) = mpatch M H D B (set_fsts x s). Proof. reflexivity. Qed.
Lemma q_set_fret x M H D B s : set_fret x (mpatch M H D B s) = mpatch M H D B (set_fret x s). Proof. reflexivity. Qed.
Lemma q_set_fbuf x M H D B s : set_fbuf x (mpatch M H D B s) = mpatch M H D B (set_fbuf x s). Proof. reflexivity. Qed.
Lemma q_set_ffin x M H D B s : set_ffin x (mpatch M H D B s) = mpatch M H D B (set_ffin x s). Proof. reflexivity. Qed.
Lemma q_set_fdisc x M H D B s : set_fdisc x (mpatch M H D B s) = mpatch M H D B (set_fdisc x s). Proof. reflexivity. Qed.
Lemma q_set_favail x M H D B s : set_favail x (mpatch M H D B s) = mpatch M H D B (set_favail x s). Proof. reflexivity. Qed.
Lemma q_set_fuse x M H D B s : set_fuse x (mpatch M H D B s) = mpatch M H D B (set_fuse x s). Proof. reflexivity. Qed.
Lemma q_set_hdrs x M H D B s : set_hdrs x (mpatch M H D B s) = mpatch M H D B (set_hdrs x s). Proof. reflexivity. Qed.
Lemma q_set_mupd x M H D B s : set_mupd x (mpatch M H D B s) = mpatch M H D B (set_mupd x s). Proof. reflexivity. Qed.
Lemma q_set_msec x M H D B s : set_msec x (mpatch M H D B s) = mpatch M H D B (set_msec x s). Proof. reflexivity. Qed.
Lemma q_set_mqueue x M H D B s : set_mqueue x (mpatch M H D B s) = mpatch M H D B (set_mqueue x s). Proof. reflexivity. Qed.
Lemma q_set_mavail x M H D B s : set_mavail x (mpatch M H D B s) = mpatch M H D B (set_mavail x s). Proof. reflexivity. Qed.
Lemma q_set_muse x M H D B s : set_muse x (mpatch M H D B s) = mpatch M H D B (set_muse x s). Proof. reflexivity. Qed.
Lemma q_set_mbufs x M H D B s : set_mbufs x (mpatch M H D B s) = mpatch M H D x s. Proof. reflexivity. Qed.
Lemma q_set_next x M H D B s : set_next x (mpatch M H D B s) = mpatch M H D B (set_next x s). Proof. reflexivity. Qed.
Lemma q_set_sops x M H D B s : set_sops x (mpatch M H D B s) = mpatch M H D B (set_sops x s). Proof. reflexivity. Qed.
Lemma q_set_mops x M H D B s : set_mops x (mpatch M H D B s) = mpatch x H D B s. Proof. reflexivity. Qed.
Lemma q_set_mh x M H D B s : set_mh x (mpatch M H D B s) = mpatch M x D B s. Proof. reflexivity. Qed.
Lemma q_set_mdone x M H D B s : set_mdone x (mpatch M H D B s) = mpatch M H x B s. Proof. reflexivity. Qed.
Lemma q_set_slive x M H D B s : set_slive x (mpatch M H D B s) = mpatch M H D B (set_slive x s). Proof. reflexivity. Qed.
Lemma q_set_panic x M H D B s : set_panic x (mpatch M H D B s) = mpatch M H D B (set_panic x s). Proof. reflexivity. Qed.
Lemma q_set_ops x M H D B s : set_ops x (mpatch M H D B s) = mpatch M H D B (set_ops x s). Proof. reflexivity. Qed.
Lemma q_set_bh x M H D B s : set_bh x (mpatch M H D B s) = mpatch M H D B (set_bh x s). Proof. reflexivity. Qed.
Lemma q_set_bdone x M H D B s : set_bdone x (mpatch M H D B s) = mpatch M H D B (set_bdone x s). Proof. reflexivity. Qed.
Lemma q_set_bufs x M H D B s : set_bufs x (mpatch M H D B s) = mpatch M H D B (set_bufs x s). Proof. reflexivity. Qed.
Hint Rewrite q_chq q_chfin q_chreq q_shf q_shw q_cntF q_cntS q_mq q_wdone q_fq q_fauto q_fsts q_fret q_fbuf q_ffin q_fdisc q_favail q_fuse q_hdrs q_mupd q_msec q_mqueue q_mavail q_muse q_mbufs q_next q_sops q_mops q_mh q_mdone q_slive q_panic q_ops q_bh q_bdone q_bufs q_set_chq q_set_chfin q_set_chreq q_set_shf q_set_shw q_set_cntF q_set_cntS q_set_mq q_set_wdone q_set_fq q_set_fauto q_set_fsts q_set_fret q_set_fbuf q_set_ffin q_set_fdisc q_set_favail q_set_fuse q_set_hdrs q_set_mupd q_set_msec q_set_mqueue q_set_mavail q_set_muse q_set_mbufs q_set_next q_set_sops q_set_mops q_set_mh q_set_mdone q_set_slive q_set_panic q_set_ops q_set_bh q_set_bdone q_set_bufs : qpat.

Lemma mpatch_self (s : state V) : mpatch (mops s) (mh s) (mdone s) (mbufs s) s = s.
Proof. destruct s. reflexivity. Qed.

Lemma mpatch_twice M H D B M' H' D' B' s : mpatch M H D B (mpatch M' H' D' B' s) = mpatch M H D B s.
Proof. reflexivity. Qed.

(** [f] does not look at the metadata device. *)
Definition blind (f : state V -> state V) : Prop := forall M H D B s, f (mpatch M H D B s) = mpatch M H D B (f s).

Lemma blind_frame f s : blind f -> mops (f s) = mops s /\ mh (f s) = mh s /\ mdone (f s) = mdone s /\ mbufs (f s) = mbufs s.
Proof.
  intros L. pose proof (L (mops s) (mh s) (mdone s) (mbufs s) s) as E. rewrite mpatch_self in E. rewrite E. repeat split.
Qed.

Ltac qnorm := unfold enqueue, fail_req, issue, start_flush; autorewrite with qpat.
Ltac qrefl := qnorm; reflexivity.

Lemma q_ssf q sts : forall s M H D B,
  start_stripe_fetches c q sts (mpatch M H D B s) =
  (mpatch M H D B (fst (start_stripe_fetches c q sts s)), snd (start_stripe_fetches c q sts s)).
Proof.
  induction sts as [|st r IH]; intros; cbn [start_stripe_fetches]; [reflexivity|].
  autorewrite with qpat.
  destruct (st <? nst c); [|reflexivity]. destruct (negb (released (shf s st)) && negb (chreq s q st)); [|apply IH].
  destruct (wdone s); [reflexivity|]. autorewrite with qpat. apply IH.
Qed.
Lemma q_ssw sts : forall s M H D B,
  start_stripe_set_written c sts (mpatch M H D B s) =
  (mpatch M H D B (fst (start_stripe_set_written c sts s)), snd (start_stripe_set_written c sts s)).
Proof.
  induction sts as [|st r IH]; intros; cbn [start_stripe_set_written]; [reflexivity|].
  autorewrite with qpat.
  destruct (st <? nst c); [|reflexivity]. destruct (shw s st); [apply IH|].
  destruct (wdone s); [reflexivity|]. autorewrite with qpat. apply IH.
Qed.
Lemma q_fetch_status s M H D B sts : fetch_status c (mpatch M H D B s) sts = fetch_status c s sts.
Proof. induction sts; cbn [fetch_status]; [reflexivity|]. autorewrite with qpat. now rewrite IHsts. Qed.
Lemma q_written s M H D B sts : stripes_written c (mpatch M H D B s) sts = stripes_written c s sts.
Proof. induction sts; cbn [stripes_written]; [reflexivity|]. autorewrite with qpat. now rewrite IHsts. Qed.

Lemma b_queue_write n q id off data : blind (queue_write c n q id off data).
Proof.
  intros M H D B s. unfold queue_write. rewrite q_ssf. cbv zeta.
  destruct (start_stripe_fetches c q (stripes_of c off (length data)) s) as [s1 r1]. cbn [fst snd].
  rewrite q_ssw. destruct (start_stripe_set_written c (stripes_of c off (length data)) s1) as [s2 r2]. cbn [fst snd].
  destruct r1; [destruct (track c); [destruct r2|]| |]; qrefl.
Qed.

Lemma b_issue n q id dv r : blind (issue n q id dv r).
Proof. intros M H D B s. destruct r; reflexivity. Qed.

Lemma b_add_read n q id off len : blind (add_read c n q id off len).
Proof.
  intros M H D B s. unfold add_read. rewrite q_fetch_status, q_ssf. cbv zeta.
  destruct (start_stripe_fetches c q (stripes_of c off len) s) as [s1 r1]. cbn [fst snd].
  destruct (fetch_status c s (stripes_of c off len)).
  - destruct ((stripe_first c off =? stripe_last c off len) && has_image c); [reflexivity|]. destruct r1; qrefl.
  - apply b_issue.
  - qrefl.
  - qrefl.
Qed.

Lemma b_add_write n q id off data : blind (add_write c n q id off data).
Proof.
  intros M H D B s. unfold add_write. rewrite q_fetch_status, q_written. cbv zeta.
  destruct (fetch_status c s (stripes_of c off (length data))).
  - apply b_queue_write.
  - destruct (track c); [destruct (stripes_written c s (stripes_of c off (length data))) as [[|]|]|].
    + apply b_issue.
    + apply b_queue_write.
    + qrefl.
    + apply b_issue.
  - qrefl.
  - qrefl.
Qed.

Lemma b_add_req q id r : blind (add_req c q id r).
Proof.
  intros M H D B s. unfold add_req. autorewrite with qpat. cbv zeta.
  destruct r; [apply b_add_read|apply b_add_write|apply b_issue].
Qed.

Lemma b_process_front q : blind (process_front c q).
Proof.
  intros M H D B s. unfold process_front. autorewrite with qpat.
  destruct (chq s q) as [|r l]; [reflexivity|]. rewrite q_fetch_status, q_written. cbv zeta.
  destruct (fetch_status c s (req_stripes c (rq_req r))); try qrefl.
  destruct (track c && is_write (rq_req r)); [|destruct (rq_req r); qrefl].
  destruct (stripes_written c s (req_stripes c (rq_req r))) as [[|]|]; [destruct (rq_req r); qrefl| |]; qrefl.
Qed.

Lemma b_return_fbuf b : blind (return_fbuf b).
Proof. intros M H D B s. unfold return_fbuf. autorewrite with qpat. destruct (_ && _); reflexivity. Qed.

Lemma b_fetch_completed st ok : blind (fetch_completed c st ok).
Proof.
  intros M H D B s. unfold fetch_completed. autorewrite with qpat. destruct (fbuf s st) as [b|].
  - cbv zeta. rewrite (b_return_fbuf b M H D B (set_fbuf (upd (fbuf s) st None) s)). set (s1 := return_fbuf b (set_fbuf (upd (fbuf s) st None) s)).
    autorewrite with qpat. destruct ok; [qrefl|]. destruct (_ <? _); [qrefl|]. destruct (_ <? _); qrefl.
  - cbv zeta. autorewrite with qpat. destruct ok; [qrefl|]. destruct (_ <? _); [qrefl|]. destruct (_ <? _); qrefl.
Qed.

Lemma b_handle_fetch st : blind (handle_fetch_request c st).
Proof.
  intros M H D B s. unfold handle_fetch_request. autorewrite with qpat.
  destruct (st <? nst c); [|reflexivity]. destruct (released (shf s st)); [reflexivity|]. destruct (fsts s st); reflexivity.
Qed.

Lemma b_update_autofetch : blind (update_autofetch c).
Proof.
  intros M H D B s. unfold update_autofetch. autorewrite with qpat.
  destruct (autofetch c); [|reflexivity]. destruct (fq s); [|reflexivity]. destruct (fauto s) as [|st r]; [reflexivity|].
  autorewrite with qpat. apply b_handle_fetch.
Qed.

Lemma b_worker_recv : blind (worker_recv c).
Proof.
  intros M H D B s. unfold worker_recv. autorewrite with qpat.
  destruct (mq s) as [|[st|st] r]; [reflexivity| |qrefl]. autorewrite with qpat. apply b_handle_fetch.
Qed.

Lemma b_start_fetch a : blind (start_fetch c a).
Proof.
  intros M H D B s. unfold start_fetch. autorewrite with qpat.
  destruct (fq s) as [|st q]; [reflexivity|]. destruct (favail s) as [|b av]; [reflexivity|]. cbv zeta.
  autorewrite with qpat.
  set (s1 := set_fbuf (upd (fbuf s) st (Some b)) (set_fuse (upd (fuse s) b true) (set_favail av (set_fq q s)))).
  change (source_accepts c a st (mpatch M H D B s1)) with (source_accepts c a st s1).
  destruct (source_accepts c a st s1); [qrefl|]. rewrite b_fetch_completed. qrefl.
Qed.

Lemma b_start_write st b : blind (start_write c st b).
Proof. intros M H D B s. unfold start_write. destruct (target c <? st * ssc c); qrefl. Qed.

Lemma b_src_done n ok : blind (src_done c n ok).
Proof.
  intros M H D B s. unfold src_done. autorewrite with qpat.
  destruct (sops s n) as [[st b]|]; [|reflexivity]. cbv zeta. autorewrite with qpat.
  destruct ok; autorewrite with qpat.
  - destruct (fbuf _ st) as [b'|]; [apply b_start_write|reflexivity].
  - destruct (fbuf _ st) as [b'|]; [apply b_fetch_completed|reflexivity].
Qed.

Lemma b_take_finished_fetches : blind (@take_finished_fetches V).
Proof. intros M H D B s. unfold take_finished_fetches. qrefl. Qed.

Lemma b_scribble n i v : blind (scribble n i v).
Proof. intros M H D B s. unfold scribble. autorewrite with qpat. destruct (sops s n) as [[st b]|]; reflexivity. Qed.

Lemma b_disconnect : blind (@disconnect V).
Proof. intros M H D B s. unfold disconnect, fetcher_busy, source_busy, target_busy. autorewrite with qpat. destruct (_ && _); reflexivity. Qed.

Lemma b_tgt_done st ok : blind (tgt_done c st ok).
Proof.
  intros M H D B s. unfold tgt_done. autorewrite with qpat. destruct ok; [|apply b_fetch_completed].
  destruct (fsts s st) as [[| | |]|]; try reflexivity. apply b_fetch_completed.
Qed.

Lemma b_worker f : blind f -> blind (worker f).
Proof. intros L M H D B s. unfold worker. rewrite q_wdone. destruct (wdone s); [reflexivity|apply L]. Qed.

Lemma b_read_sample n i : blind (read_sample c n i).
Proof.
  intros M H D B s. unfold read_sample. autorewrite with qpat. destruct (ops s n) as [[o d [| |]]|]; try reflexivity.
  destruct (_ && _); reflexivity.
Qed.

Lemma q_op_done n ok M H D B s : op_done c n ok (mpatch M H D B s) = (mpatch M H D B (fst (op_done c n ok s)), snd (op_done c n ok s)).
Proof.
  unfold op_done. rewrite q_ops. destruct (ops s n) as [[o d k]|]; [|reflexivity]. destruct (ok && negb _); [reflexivity|]. cbv zeta.
  set (s1 := set_ops (upd (ops s) n None) s). change (set_ops (upd (ops s) n None) (mpatch M H D B s)) with (mpatch M H D B s1).
  assert (E : (if ok then complete_medium n k (mpatch M H D B s1) else mpatch M H D B s1) = mpatch M H D B (if ok then complete_medium n k s1 else s1))
    by (destruct ok; [destruct k|]; reflexivity).
  rewrite E. destruct o as [q id|st]; [reflexivity|]. rewrite q_wdone. destruct (wdone s); [reflexivity|]. now rewrite b_tgt_done.
Qed.

(** ** Every step in which the metadata flusher has no part *)

Definition flusher_step (e : oevent V) : bool :=
  match e with OOwn EWStartWrite => true | _ => metadata_step e end.

Lemma calls_patch M H D B s s' : calls (mpatch M H D B s) (mpatch M H D B s') = calls s s'.
Proof. reflexivity. Qed.

Lemma q_ostep e M H D B s : flusher_step e = false ->
  ostep c (mpatch M H D B s) e =
  match ostep c s e with Some (s', g, b) => Some (mpatch M H D B s', g, b) | None => None end.
Proof.
  intros F. destruct e as [e|n ok data|b i v|pm]; [| | |discriminate F]; cbn [ostep].
  - change (own (mpatch M H D B s) e) with (own s e). destruct (own s e) eqn:Ow; [|reflexivity].
    assert (E : step c (mpatch M H D B s) e = (mpatch M H D B (fst (step c s e)), snd (step c s e))).
    { unfold step. rewrite q_panic.
      assert (P : forall f (t : list (titem V)), blind f -> (if panic s then (mpatch M H D B s, []) else (f (mpatch M H D B s), t)) =
        (mpatch M H D B (fst (if panic s then (s, []) else (f s, t))), snd (if panic s then (s, []) else (f s, t)))).
      { intros f t L. destruct (panic s); [reflexivity|]. cbn [fst snd]. now rewrite L. }
      destruct e as [q id r|q|q|n ok|n i|n i|n i v|n| | | |a|n ok| | |n ok| |pb pm]; try discriminate F; try discriminate Ow.
      - rewrite q_next. apply P, b_add_req.
      - apply P, b_process_front.
      - destruct (panic s); reflexivity.
      - destruct (panic s); [reflexivity|]. apply q_op_done.
      - apply P, b_read_sample.
      - apply P, b_scribble.
      - apply P, b_worker, b_worker_recv.
      - destruct (panic s); reflexivity.
      - apply P, b_worker, b_update_autofetch.
      - apply P, b_worker, b_start_fetch.
      - apply P, b_worker, b_src_done.
      - apply P, b_worker, b_take_finished_fetches.
      - apply P, b_worker, b_disconnect. }
    rewrite E. destruct (step c s e) as [s' t]. reflexivity.
  - rewrite q_panic. destruct (panic s); [reflexivity|]. rewrite q_ops. destruct (ops s n) as [[o [|] k]|]; try reflexivity.
    destruct o as [q id|st]; [reflexivity|]. rewrite q_wdone. destruct (wdone s); [reflexivity|]. cbv zeta.
    change (set_ops (upd (ops s) n None) (mpatch M H D B s)) with (mpatch M H D B (set_ops (upd (ops s) n None) s)).
    rewrite b_tgt_done. reflexivity.
  - reflexivity.
Qed.

Lemma ostep_frame e s s' g b : flusher_step e = false -> ostep c s e = Some (s', g, b) ->
  mops s' = mops s /\ mh s' = mh s /\ mdone s' = mdone s /\ mbufs s' = mbufs s.
Proof.
  intros F E. pose proof (q_ostep e (mops s) (mh s) (mdone s) (mbufs s) s F) as X. rewrite mpatch_self, E in X.
  injection X as X. rewrite X. repeat split.
Qed.

(** ** The metadata flusher *)

(** A call is made on the metadata channel, in the state with and without the device. *)
Inductive called (s s' : state V) (M M' : nat -> option mop) (D : nat -> bool) : option (nat * nat * req (list byte)) -> Prop :=
| cl_none : mops s' = mops s -> M' = M -> mbufs s' = mbufs s -> called s s' M M' D None
| cl_write : forall st b h, st < nst c -> (exists av, mavail s = b :: av) ->
    mops s' = upd (mops s) (next s) (Some (MWrite st (group_of c st) b false)) ->
    M' = upd M (next s) (Some (MWrite st (group_of c st) b false)) ->
    mbufs s' = upd (mbufs s) b h -> next s' = S (next s) ->
    called s s' M M' D (Some (next s, st, RWrite (1 + group_of c st) [header_bytes c h st]))
| cl_flush : forall st,
    mops s' = upd (mops s) (next s) (Some (MFlush st (mdone s))) ->
    M' = upd M (next s) (Some (MFlush st D)) -> mbufs s' = mbufs s -> next s' = S (next s) ->
    called s s' M M' D (Some (next s, st, RFlush)).

Lemma smw_patch s M H D : exists M' r, start_meta_write c (mpatch M H D (mbufs s) s) =
    mpatch M' H D (mbufs (start_meta_write c s)) (start_meta_write c s) /\
  called s (start_meta_write c s) M M' D r /\
  mh (start_meta_write c s) = mh s /\ mdone (start_meta_write c s) = mdone s /\ ops (start_meta_write c s) = ops s.
Proof.
  unfold start_meta_write. rewrite q_mqueue, q_mavail.
  assert (Id : exists M' r, mpatch M H D (mbufs s) s = mpatch M' H D (mbufs s) s /\ called s s M M' D r /\ mh s = mh s /\ mdone s = mdone s /\ ops s = ops s)
    by (exists M, None; repeat split; now apply cl_none).
  destruct (mqueue s) as [|[st k] q]; [exact Id|]. destruct (mavail s) as [|b av] eqn:Av; [exact Id|].
  rewrite q_msec, q_set_mqueue, q_hdrs. cbv zeta. destruct (existsb _ _); [exact Id|].
  destruct (Nat.ltb_spec st (nst c)) as [Hst|]; [|exists M, None; repeat split; now apply cl_none].
  destruct (has_flag (mask_of k) (hdrs (set_mqueue q s) st)); [exists M, None; repeat split; now apply cl_none|].
  set (hd := upd (hdrs (set_mqueue q s)) st (N.lor (hdrs (set_mqueue q s) st) (mask_of k))).
  set (s2 := set_hdrs hd (set_muse (upd (muse (set_mqueue q s)) b true) (set_mavail av (set_mqueue q s)))).
  exists (upd M (next s) (Some (MWrite st (group_of c st) b false))), (Some (next s, st, RWrite (1 + group_of c st) [header_bytes c hd st])).
  split; [|split; [|repeat split]].
  - rewrite ?q_muse, ?q_set_mavail, ?q_set_muse, ?q_set_hdrs. fold s2. rewrite ?q_mbufs, ?q_hdrs, ?q_set_mbufs, ?q_next, ?q_set_next, ?q_mops, ?q_set_mops, ?q_msec, ?q_mupd, ?q_set_msec, ?q_set_mupd. reflexivity.
  - apply (cl_write _ _ _ _ _ st b hd); [exact Hst|eauto|reflexivity|reflexivity|reflexivity|reflexivity].
Qed.

Lemma b_ssh st h : blind (set_stripe_header c st h).
Proof.
  intros M H D B s. unfold set_stripe_header. autorewrite with qpat. destruct (st <? nst c); [|reflexivity]. cbv zeta.
  destruct (has_flag FLAG_FETCHED h); [destruct (released (shf s st))|]; destruct (has_flag FLAG_WRITTEN h); qrefl.
Qed.
Lemma b_return_mbuf b : blind (@return_mbuf V b).
Proof. intros M H D B s. unfold return_mbuf. autorewrite with qpat. destruct (_ && _); reflexivity. Qed.
Lemma b_meta_flushed st u : blind (meta_flushed c st u).
Proof. intros M H D B s. unfold meta_flushed. cbv zeta. autorewrite with qpat. apply b_ssh. Qed.
Lemma b_meta_failed st u : blind (@meta_failed V st u).
Proof.
  intros M H D B s. unfold meta_failed. cbv zeta. autorewrite with qpat. rewrite b_return_mbuf.
  destruct (u_stage u); autorewrite with qpat; reflexivity.
Qed.

Lemma completion_patch st ok s M H D : exists M' r, meta_completion c st ok (mpatch M H D (mbufs s) s) =
    mpatch M' H D (mbufs (meta_completion c st ok s)) (meta_completion c st ok s) /\
  called s (meta_completion c st ok s) M M' D r /\
  mh (meta_completion c st ok s) = mh s /\ mdone (meta_completion c st ok s) = mdone s.
Proof.
  unfold meta_completion. rewrite q_mupd. destruct (mupd s st) as [u|].
  2:{ exists M, None. split; [reflexivity|]. split; [now apply cl_none|]. auto. }
  assert (L : forall f, blind f -> exists M' r, f (mpatch M H D (mbufs s) s) = mpatch M' H D (mbufs (f s)) (f s) /\
    called s (f s) M M' D r /\ mh (f s) = mh s /\ mdone (f s) = mdone s).
  { intros f L. destruct (blind_frame f s L) as (F1 & F2 & F3 & F4). exists M, None. rewrite L, F4. split; [reflexivity|].
    split; [now apply cl_none|auto]. }
  destruct ok; [destruct (u_stage u)|].
  - unfold meta_written. rewrite b_return_mbuf. destruct (blind_frame _ s (b_return_mbuf (u_buf u))) as (F1 & F2 & F3 & F4).
    assert (F5 : next (return_mbuf (u_buf u) s) = next s) by (unfold return_mbuf; destruct (_ && _); reflexivity).
    set (s1 := return_mbuf (u_buf u) s) in *. cbv zeta. autorewrite with qpat.
    exists (upd M (next s) (Some (MFlush st D))), (Some (next s, st, RFlush)).
    split; [change (mbufs (set_mupd _ (set_mops _ (set_next _ s1)))) with (mbufs s1); rewrite F4, F5; reflexivity|].
    split; [|split; [exact F2|exact F3]]. apply cl_flush.
    + transitivity (upd (mops s1) (next s1) (Some (MFlush st (mdone s1)))); [reflexivity|now rewrite F1, F3, F5].
    + reflexivity.
    + exact F4.
    + transitivity (S (next s1)); [reflexivity|now rewrite F5].
  - apply L, b_meta_flushed.
  - apply L, b_meta_failed.
Qed.
End Layer.
