(** Lemmas about requests in flight, for LayerProofs.v. *)
From Coq Require Import List Arith NArith Bool Lia ZifyBool ZifyNat.
Import ListNotations.
From Verif Require Import Base BaseFacts DiskSpec TraceSpec TraceFacts LayerSpec.

Section Ids.
Context {V : Type}.
Variable size : nat.

Lemma waiting_snoc (t : list (titem V)) i m q id : waiting (t ++ [i]) m q id ->
  (exists r, i = TIssue m q id r) \/
  (waiting t m q id /\ i <> TCrash /\ forall q' id' ok data, i <> TDone m q' id' ok data).
Proof.
  intros (t1 & r & t2 & E & H1 & H2). destruct t2 as [|x t2 _] using rev_ind.
  - left. apply app_inj_tail in E as [_ ->]. eauto.
  - right. rewrite app_comm_cons, app_assoc in E. apply app_inj_tail in E as [-> ->]. split; [|split].
    + exists t1, r, t2. split; auto. split; [intros X; apply H1; apply in_or_app; auto|].
      intros q' id' ok data X. eapply H2. apply in_or_app. left. eauto.
    + intros ->. apply H1. apply in_or_app. right. now left.
    + intros q' id' ok data ->. eapply H2. apply in_or_app. right. left. reflexivity.
Qed.

Lemma waiting_more (t : list (titem V)) i m q id : waiting t m q id -> i <> TCrash -> (forall q' id' ok data, i <> TDone m q' id' ok data) ->
  waiting (t ++ [i]) m q id.
Proof.
  intros (t1 & r & t2 & -> & H1 & H2) Hc Hd. exists t1, r, (t2 ++ [i]). rewrite <- app_assoc. split; [reflexivity|]. split.
  - intros X. apply in_app_iff in X as [X|[X|[]]]; auto.
  - intros q' id' ok data X. apply in_app_iff in X as [X|[X|[]]]; [exact (H2 _ _ _ _ X)|exact (Hd _ _ _ _ X)].
Qed.

Lemma waiting_new (t : list (titem V)) n q id r : waiting (t ++ [TIssue n q id r]) n q id.
Proof. exists t, r, []. split; [reflexivity|]. split; intros; intros []. Qed.

Lemma waiting_issued (t : list (titem V)) m q id : waiting t m q id -> exists r, In (TIssue m q id r) t.
Proof. intros (t1 & r & t2 & -> & _). exists r. apply in_or_app. right. now left. Qed.

(** What waits is in flight, and the other way round. *)
Lemma waiting_step d (t : list (titem V)) e d' t' : Issued d t -> (forall m q id, waiting t m q id -> exists k, d_ops d m = Some (mk_dop q id k)) ->
  dstep size d e = Some (d', t') -> forall m q id, waiting (t ++ t') m q id -> exists k, d_ops d' m = Some (mk_dop q id k).
Proof.
  intros I W St m q id Hw. destruct (dstep_cases _ _ _ _ _ St) as [->|(i & ->)].
  - rewrite app_nil_r in Hw. destruct (W _ _ _ Hw) as (k & Ek). unfold dstep in St. destruct e as [n0 q0 id0 r|n0 j|n0 j|n0 ok|p].
    + destruct (d_used d n0); discriminate St.
    + destruct (d_ops d n0) as [[c0 i0 [ | off dd ap|]]|] eqn:E; try discriminate St. destruct (nth_error dd j); [|discriminate St].
      destruct (_ && _); [|discriminate St]. injection St as <-. cbn [d_ops]. unfold upd. destruct (Nat.eqb_spec m n0) as [->|]; [|eauto].
      rewrite E in Ek. injection Ek as <- <- <-. eauto.
    + destruct (d_ops d n0) as [[c0 i0 [off len got| |]]|] eqn:E; try discriminate St.
      destruct (_ && _); [|discriminate St]. injection St as <-. cbn [set_kind d_ops d_ch d_id]. unfold upd. destruct (Nat.eqb_spec m n0) as [->|]; [|eauto].
      rewrite E in Ek. injection Ek as <- <- <-. eauto.
    + destruct (d_ops d n0) as [[c0 i0 k0]|]; [|discriminate St]. destruct ok; [|discriminate St].
      destruct k0; try discriminate St; destruct (in_range_all _ _ _ _); discriminate St.
    + discriminate St.
  - apply waiting_snoc in Hw as [(r & ->)|(Hw & Hc & Hd)].
    + apply item_issue in St as [_ ->]. cbn [dissue d_ops]. unfold upd. rewrite Nat.eqb_refl. eauto.
    + destruct (W _ _ _ Hw) as (k & Ek). destruct i as [n0 q0 id0 r0|n0 q0 id0 ok0 data0|]; [| |contradiction].
      * apply item_issue in St as [Hu ->]. cbn [dissue d_ops]. unfold upd. destruct (Nat.eqb_spec m n0) as [->|]; [|eauto].
        destruct I as (_ & _ & I3). rewrite (I3 _ _ Ek) in Hu. discriminate Hu.
      * apply item_done in St as (k0 & E0 & St). cbn [dstep] in St. rewrite E0 in St.
        assert (Hm : m <> n0) by (intros ->; exact (Hd _ _ _ _ eq_refl)). apply Nat.eqb_neq in Hm.
        destruct ok0; [destruct k0|]; try (destruct (in_range_all _ _ _ _); [|discriminate St]); injection St as <- _;
          cbn [finish d_ops]; unfold upd; rewrite Hm; eauto.
Qed.

Lemma in_flight contents (t : list (titem V)) d : disk_behaviour size contents t d ->
  forall m q id, waiting t m q id <-> exists k, d_ops d m = Some (mk_dop q id k).
Proof.
  intros (es & H) m q id. split.
  - assert (X : Issued d t /\ forall m q id, waiting t m q id -> exists k, d_ops d m = Some (mk_dop q id k)).
    { revert es d t H. apply run_ind.
      - split; [repeat split; try discriminate; intros n0 q0 id0 r0 []|]. intros m0 q0 id0 (t1 & r & t2 & E & _). destruct t1; discriminate E.
      - intros d t e d' t' [I W] St. split; [eapply issued_step; eauto|eapply waiting_step; eauto]. }
    apply X.
  - intros (k & Ek). apply issued_run in H as (A & _ & _). destruct (A _ _ _ _ Ek) as (t0 & r & t3 & -> & _ & Hc & Hd).
    exists t0, r, t3. auto.
Qed.

Lemma behaves_prefix contents (t1 t2 : list (titem V)) : behaves size contents (t1 ++ t2) -> behaves size contents t1.
Proof.
  intros (d & es & H). destruct (drun_cut _ _ _ _ _ _ H) as (e1 & e2 & d1 & A & _). exists d1, e1. exact A.
Qed.

Lemma respects_prefix contents (t1 t2 : list (titem V)) : respects size contents (t1 ++ t2) -> respects size contents t1.
Proof.
  intros H a n q id r b -> Hb. apply (H a n q id r (b ++ t2)); auto. rewrite <- app_assoc. reflexivity.
Qed.

(** Requests in flight have different ids if the caller respects the contract. *)
Lemma ids_distinct contents (t : list (titem V)) : behaves size contents t -> respects size contents t ->
  forall m n q id, waiting t m q id -> waiting t n q id -> m = n.
Proof.
  induction t as [|i t IH] using rev_ind; intros Hb Hr m n q id Hm Hn.
  - destruct Hm as (t1 & r & t2 & E & _). destruct t1; discriminate E.
  - pose proof (behaves_prefix _ _ _ Hb) as Hb1. pose proof (respects_prefix _ _ _ Hr) as Hr1.
    apply waiting_snoc in Hm as [(r & ->)|(Hm & _)]; apply waiting_snoc in Hn as [(r' & E)|(Hn & _)].
    + now injection E as ->.
    + exfalso. exact (Hr t m q id r [] eq_refl Hb1 n Hn).
    + subst i. exfalso. exact (Hr t n q id r' [] eq_refl Hb1 m Hm).
    + eapply IH; eauto.
Qed.
End Ids.
