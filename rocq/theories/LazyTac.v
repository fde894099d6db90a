(** Tactics for the lazy-device proofs. *)
From Coq Require Import List Arith NArith Bool Lia ZifyBool ZifyNat.
Import ListNotations.
From Verif Require Import Base BaseFacts DiskSpec LazyState MetadataModel LazyModel LazyInv.

(** Reduce projections of updated states. *)
Ltac sred := cbn [chq chfin chreq shf shw cntF cntS mq wdone fq fauto fsts fret fbuf ffin fdisc favail fuse bufs hdrs mupd msec mqueue mavail muse mbufs ops next bh bdone sops mops mh mdone slive panic set_chq set_chfin set_chreq set_shf set_shw set_cntF set_cntS set_mq set_wdone set_fq set_fauto set_fsts set_fret set_fbuf set_ffin set_fdisc set_favail set_fuse set_bufs set_hdrs set_mupd set_msec set_mqueue set_mavail set_muse set_mbufs set_ops set_next set_bh set_bdone set_sops set_mops set_mh set_mdone set_slive set_panic] in *.

(** Case-split on all function updates. *)
Ltac ucase :=
  repeat match goal with
  | H : context [upd ?f ?k ?v ?x] |- _ =>
    unfold upd in H at 1; destruct (Nat.eqb_spec x k); [try subst x|]; try (match goal with H : ?y <> ?y |- _ => destruct (H eq_refl) end)
  | |- context [upd ?f ?k ?v ?x] =>
    unfold upd at 1; destruct (Nat.eqb_spec x k); [try subst x|]; try (match goal with H : ?y <> ?y |- _ => destruct (H eq_refl) end)
  end.

Ltac inv H := inversion H; clear H; subst.
Ltac injs := repeat match goal with
  | H : Some _ = Some _ |- _ => injection H; clear H; intros; try subst
  | H : Some _ = None |- _ => discriminate H
  | H : None = Some _ |- _ => discriminate H
  | H : mk_op _ _ _ = mk_op _ _ _ |- _ => injection H; clear H; intros; try subst
  | H : (_, _) = (_, _) |- _ => injection H; clear H; intros; try subst
  end.

Lemma nodup_snoc {A} (l : list A) x : NoDup l -> ~ In x l -> NoDup (l ++ [x]).
Proof.
  intros H Hx. induction H as [|y l Hy H IH]; cbn.
  - constructor; auto. constructor.
  - constructor.
    + rewrite in_app_iff. intros [A1|[A1|[]]]; [auto|]. subst. apply Hx. now left.
    + apply IH. intros A1. apply Hx. now right.
Qed.
