(** Device and fetcher steps preserve the invariant. *)
From Coq Require Import List Arith NArith Bool Lia ZifyBool ZifyNat.
Import ListNotations.
From Verif Require Import Base BaseFacts DiskSpec LazyState MetadataModel LazyModel LazyInv LazyTac.

Section FetchInv.
Context {V : Type}.
Variable c : cfg V.
Variable hsrc : nat -> bool.
Hypothesis WF : wf c.

Notation Inv := (Inv c hsrc).

(** ** Small facts *)

Lemma trim_head {A} snap (n : nat) (v : A) l : exists l', trim snap ((n, v) :: l) = (n, v) :: l'.
Proof. cbn. destruct (snap n); eauto. Qed.

Lemma trim_single {A} snap (e : nat * A) : trim snap [e] = [e].
Proof. cbn. destruct (snap (fst e)); reflexivity. Qed.

Lemma trim_durable {A} (snap : nat -> bool) n (v : A) l : snap n = true -> trim snap ((n, v) :: l) = [(n, v)].
Proof. intros H. cbn. rewrite H. reflexivity. Qed.

Lemma fetch_sector_in st i :
  i < Nat.min (ssc c) (target c - st * ssc c) -> in_stripe c st (st * ssc c + i).
Proof.
  intros H. pose proof (wf_ssc _ WF). split; [|lia].
  rewrite Nat.div_add_l by lia. rewrite Nat.div_small; lia.
Qed.

Lemma in_stripe_index st x : in_stripe c st x ->
  exists i, x = st * ssc c + i /\ i < Nat.min (ssc c) (target c - st * ssc c).
Proof.
  intros [<- H]. pose proof (wf_ssc _ WF) as Hs. exists (x mod ssc c).
  pose proof (Nat.div_mod x (ssc c)). pose proof (Nat.mod_upper_bound x (ssc c)). split; nia.
Qed.

Lemma in_range_all_spec sz off len p : in_range_all sz off len p = true ->
  forall i, i < len -> off + i < sz -> p i = true.
Proof. clear hsrc WF.
  unfold in_range_all. rewrite forallb_forall. intros H i Hi Hs.
  specialize (H i). rewrite in_seq in H. specialize (H ltac:(lia)).
  destruct (Nat.ltb_spec (off + i) sz); [|lia]. exact H.
Qed.

(** ** The base device *)

Lemma inv_base_apply s n i : Inv s -> Inv (base_apply c n i s).
Proof.
  intros HI. unfold base_apply.
  destruct (ops s n) as [[o dv k]|] eqn:Eo; auto. destruct dv; auto. destruct k as [off len d ap| |]; auto.
  destruct (write_value d i s) as [v|] eqn:Ev; auto.
  destruct ((i <? len) && (off + i <? target c) && negb (ap i)) eqn:E; auto.
  apply andb_true_iff in E. destruct E as [E E3]. apply andb_true_iff in E. destruct E as [E1 E2].
  apply Nat.ltb_lt in E1, E2. apply negb_true_iff in E3.
  destruct o as [q id|st].
  - (* a guest write *)
    pose proof (i_G_op _ _ _ HI _ _ _ _ _ Eo) as [(l & -> & ->) Ht]. cbn [write_value] in Ev.
    destruct (Ht i E1) as [Hrel _].
    constructor; try frame HI.
    + intros m o H. sred. ucase; injs; [|exact (i_N_ops _ _ _ HI _ _ H)]. exact (i_N_ops _ _ _ HI _ _ Eo).
    + intros m st dv k H. sred. ucase; injs; [discriminate|]. exact (i_F_op _ _ _ HI _ _ _ _ H).
    + intros m m' st dv1 dv2 k1 k2 H1 H2. sred. ucase; injs; try discriminate.
      exact (i_F_uniq_op _ _ _ HI _ _ _ _ _ _ _ H1 H2).
    + intros m m' st b dv k H1 H2. sred. ucase; injs; try discriminate.
      exact (i_F_uniq _ _ _ HI _ _ _ _ _ _ H1 H2).
    + intros m st dv off' len' b ap' H. sred. ucase; injs; try discriminate.
      exact (i_D_buf _ _ _ HI _ _ _ _ _ _ _ H).
    + intros m st dv off' len' d ap' H j Hj Ha. sred. unfold upd in H. destruct (Nat.eqb_spec m n); [injs; discriminate|].
      destruct (i_F_op _ _ _ HI _ _ _ _ H) as [_ (-> & -> & _ & Hf)].
      unfold upd. destruct (Nat.eqb_spec (st * ssc c + j) (off + i)) as [e|];
        [|exact (i_D_applied _ _ _ HI _ _ _ _ _ _ _ H j Hj Ha)].
      destruct (fetch_sector_in st j Hj) as [Hx _]. rewrite e in Hx. rewrite Hx in Hrel.
      rewrite (i_F_unrel _ _ _ HI st _ Hf) in Hrel; [discriminate|congruence].
    + intros m st dv snap H. sred. unfold upd in H. destruct (Nat.eqb_spec m n); [injs; discriminate|].
      destruct (i_D_flush _ _ _ HI _ _ _ _ H) as (w & Hw & Hb). exists w. split; auto.
      intros x Hx. destruct (i_F_op _ _ _ HI _ _ _ _ H) as [_ Hf].
      unfold upd. destruct (Nat.eqb_spec x (off + i)) as [e|]; [|apply Hb, Hx].
      subst x. destruct Hx as [Hx _]. rewrite Hx in Hrel.
      rewrite (i_F_unrel _ _ _ HI st _ Hf) in Hrel; [discriminate|congruence].
    + intros st Hf. sred. destruct (i_D_fetched _ _ _ HI st Hf) as [|Hd]; auto.
      destruct (released (shf s st)) eqn:Er; auto. right. intros x Hx. sred.
      unfold upd. destruct (Nat.eqb_spec x (off + i)) as [e|]; [|apply Hd, Hx].
      subst x. destruct Hx as [Hx _]. rewrite Hx in Hrel. congruence.
    + intros m q' id' dv k H. sred. ucase.
      * injection H as <- <- <- <-. split; [exists l; auto|]. exact Ht.
      * exact (i_G_op _ _ _ HI _ _ _ _ _ H).
  - (* a fetch write *)
    destruct (i_F_op _ _ _ HI _ _ _ _ Eo) as [_ (-> & -> & (b & -> & Hb) & Hf)].
    cbn [write_value] in Ev. injection Ev as <-.
    pose proof (i_D_buf _ _ _ HI _ _ _ _ _ _ _ Eo) as Hbuf.
    pose proof (fetch_sector_in st i E1) as Hin.
    constructor; try frame HI.
    + intros m o H. sred. ucase; injs; [|exact (i_N_ops _ _ _ HI _ _ H)]. exact (i_N_ops _ _ _ HI _ _ Eo).
    + intros m st' dv k H. sred. ucase.
      * injection H as <- <- <-. repeat split; auto. exists b; auto.
      * exact (i_F_op _ _ _ HI _ _ _ _ H).
    + intros m m' st' dv1 dv2 k1 k2 H1 H2. sred.
      assert (A : forall p dv k, upd (ops s) n (Some (mk_op (OFetch st) DBase
          (KWrite (st * ssc c) (Init.Nat.min (ssc c) (target c - st * ssc c)) (WBuf b) (upd ap i true)))) p = Some (mk_op (OFetch st') dv k) ->
          exists dv k, ops s p = Some (mk_op (OFetch st') dv k)).
      { intros p dv k H. ucase; injs; eauto. }
      destruct (A _ _ _ H1) as (? & ? & X1). destruct (A _ _ _ H2) as (? & ? & X2).
      exact (i_F_uniq_op _ _ _ HI _ _ _ _ _ _ _ X1 X2).
    + intros m m' st' b' dv k H1 H2. sred. ucase; injs.
      * exact (i_F_uniq _ _ _ HI _ _ _ _ _ _ H1 Eo).
      * exact (i_F_uniq _ _ _ HI _ _ _ _ _ _ H1 H2).
    + intros m st' dv off' len' b' ap' H. sred. ucase.
      * injection H as <- <- <- <- <- <-. exact Hbuf.
      * exact (i_D_buf _ _ _ HI _ _ _ _ _ _ _ H).
    + intros m st' dv off' len' d ap' H j Hj Ha. sred. unfold upd in H. destruct (Nat.eqb_spec m n).
      * injection H as <- <- <- <- <- <-. subst m.
        destruct (Nat.eq_dec j i) as [->|Hji].
        -- unfold upd. rewrite Nat.eqb_refl. rewrite Hbuf by auto. eauto.
        -- unfold upd in *. destruct (Nat.eqb_spec j i); [lia|].
           destruct (Nat.eqb_spec (st * ssc c + j) (st * ssc c + i)); [lia|].
           exact (i_D_applied _ _ _ HI _ _ _ _ _ _ _ Eo j Hj Ha).
      * destruct (i_F_op _ _ _ HI _ _ _ _ H) as [_ (-> & -> & _ & Hf')].
        unfold upd. destruct (Nat.eqb_spec (st' * ssc c + j) (st * ssc c + i)) as [e|];
          [|exact (i_D_applied _ _ _ HI _ _ _ _ _ _ _ H j Hj Ha)].
        destruct (fetch_sector_in st' j Hj) as [Hx _]. rewrite e in Hx. destruct Hin as [Hin _].
        assert (Est : st' = st) by congruence; clear Hx; subst st'.
        exfalso. apply n0. exact (i_F_uniq_op _ _ _ HI _ _ _ _ _ _ _ H Eo).
    + intros m st' dv snap H. sred. unfold upd in H. destruct (Nat.eqb_spec m n); [injs; discriminate|].
      destruct (i_D_flush _ _ _ HI _ _ _ _ H) as (w & Hw & Hbh). exists w. split; auto.
      intros x Hx. destruct (i_F_op _ _ _ HI _ _ _ _ H) as [_ Hf'].
      unfold upd. destruct (Nat.eqb_spec x (st * ssc c + i)) as [e|]; [|apply Hbh, Hx].
      subst x. destruct Hx as [Hx _]. destruct Hin as [Hin _]. assert (Est : st' = st) by congruence; clear Hx; subst st'. congruence.
    + intros st' Hf'. sred. destruct (i_D_fetched _ _ _ HI st' Hf') as [|Hd]; auto. right.
      intros x Hx. sred. unfold upd. destruct (Nat.eqb_spec x (st * ssc c + i)) as [e|]; [|apply Hd, Hx].
      subst x. destruct Hx as [Hx _]. destruct Hin as [Hin _]. assert (Est : st' = st) by congruence; clear Hx; subst st'. congruence.
    + intros m q' id' dv k H. sred. ucase; injs; [discriminate|].
      exact (i_G_op _ _ _ HI _ _ _ _ _ H).
Qed.

Lemma inv_read_sample s n i : Inv s -> Inv (read_sample c n i s).
Proof.
  intros HI. unfold read_sample.
  destruct (ops s n) as [[o dv k]|] eqn:Eo; auto. destruct k as [|off len got|]; auto.
  destruct ((i <? len) && (off + i <? dev_size c dv)) eqn:E; auto.
  assert (Ho : exists q id, o = OGuest q id).
  { destruct o; eauto. destruct (i_F_op _ _ _ HI _ _ _ _ Eo) as [_ []]. }
  destruct Ho as (q & id & ->).
  constructor; try frame HI.
  - intros m o H. sred. ucase; injs; [|exact (i_N_ops _ _ _ HI _ _ H)]. exact (i_N_ops _ _ _ HI _ _ Eo).
  - intros m st dv' k H. sred. ucase; injs; [discriminate|]. exact (i_F_op _ _ _ HI _ _ _ _ H).
  - intros m m' st dv1 dv2 k1 k2 H1 H2. sred. ucase; injs; try discriminate.
    exact (i_F_uniq_op _ _ _ HI _ _ _ _ _ _ _ H1 H2).
  - intros m m' st b dv' k H1 H2. sred. ucase; injs; try discriminate.
    exact (i_F_uniq _ _ _ HI _ _ _ _ _ _ H1 H2).
  - intros m st dv' off' len' b ap' H. sred. ucase; injs; try discriminate.
    exact (i_D_buf _ _ _ HI _ _ _ _ _ _ _ H).
  - intros m st dv' off' len' b ap' H. sred. ucase; injs; try discriminate.
    exact (i_D_applied _ _ _ HI _ _ _ _ _ _ _ H).
  - intros m st dv' snap H. sred. ucase; injs; try discriminate.
    exact (i_D_flush _ _ _ HI _ _ _ _ H).
  - intros m q' id' dv' k H. sred. ucase.
    + injection H as <- <- <- <-. exact (i_G_op _ _ _ HI _ _ _ _ _ Eo).
    + exact (i_G_op _ _ _ HI _ _ _ _ _ H).
Qed.

(** Removing an operation. *)
Lemma inv_remove_op s n : Inv s -> Inv (set_ops (upd (ops s) n None) s).
Proof.
  intros HI. constructor; try frame HI.
  - intros m o H. sred. ucase; injs. exact (i_N_ops _ _ _ HI _ _ H).
  - intros m st dv k H. sred. ucase; injs. exact (i_F_op _ _ _ HI _ _ _ _ H).
  - intros m m' st dv1 dv2 k1 k2 H1 H2. sred. ucase; injs.
    exact (i_F_uniq_op _ _ _ HI _ _ _ _ _ _ _ H1 H2).
  - intros m m' st b dv k H1 H2. sred. ucase; injs.
    exact (i_F_uniq _ _ _ HI _ _ _ _ _ _ H1 H2).
  - intros m st dv off' len' b ap' H. sred. ucase; injs.
    exact (i_D_buf _ _ _ HI _ _ _ _ _ _ _ H).
  - intros m st dv off' len' b ap' H. sred. ucase; injs.
    exact (i_D_applied _ _ _ HI _ _ _ _ _ _ _ H).
  - intros m st dv snap H. sred. ucase; injs.
    exact (i_D_flush _ _ _ HI _ _ _ _ H).
  - intros m q' id' dv k H. sred. ucase; injs.
    exact (i_G_op _ _ _ HI _ _ _ _ _ H).
Qed.

Lemma inv_bdone s n : Inv s -> n < next s -> Inv (set_bdone (upd (bdone s) n true) s).
Proof.
  intros HI Hn. constructor; try frame HI.
  intros m H. sred. ucase; auto. exact (i_N_bd _ _ _ HI _ H).
Qed.

Lemma inv_trim s snap : Inv s -> Inv (set_bh (fun x => trim snap (bh s x)) s).
Proof.
  intros HI. constructor; try frame HI.
  - intros m st dv off len d ap H j Hj Ha. sred.
    destruct (i_D_applied _ _ _ HI _ _ _ _ _ _ _ H j Hj Ha) as (l & ->). apply trim_head.
  - intros m st dv sn H. sred. destruct (i_D_flush _ _ _ HI _ _ _ _ H) as (w & Hw & Hb).
    exists w. split; auto. intros x Hx. destruct (Hb x Hx) as (l & ->). apply trim_head.
  - intros st Hf. destruct (i_D_fetched _ _ _ HI st Hf) as [|Hd]; auto. right. intros x Hx. sred.
    destruct (Hd x Hx) as (w & ->). exists w. apply trim_single.
Qed.

Lemma inv_complete_medium s n k : Inv s -> n < next s -> Inv (complete_medium n k s).
Proof. intros. destruct k; cbn [complete_medium]; auto using inv_bdone, inv_trim. Qed.

(** ** fetch_completed *)

Definition no_op (s : state V) (st : nat) : Prop :=
  (forall n b, sops s n <> Some (st, b)) /\ (forall n dv k, ops s n <> Some (mk_op (OFetch st) dv k)).

(** The state in which [st] is (again) marked as being fetched. *)
Definition as_fetching (st : nat) (s : state V) : state V :=
  set_fsts (upd (fsts s) st (Some FFetching)) s.

Lemma inv_as_fetching s st :
  Inv s -> no_op s st -> (fsts s st = Some FFetching \/ fsts s st = Some FFlushing) ->
  Inv (as_fetching st s).
Proof.
  intros HI [N1 N2] Hf. unfold as_fetching.
  assert (Hu : released (shf s st) = false).
  { destruct Hf as [Hf|Hf]; apply (i_F_unrel _ _ _ HI st _ Hf); congruence. }
  constructor; try frame HI.
  - destruct (i_F_queue _ _ _ HI) as [Hn Hq]. split; auto. intros x. sred. rewrite Hq. ucase; [|tauto].
    split; destruct Hf; congruence.
  - intros x f H. sred. ucase; [|exact (i_F_range _ _ _ HI _ _ H)].
    destruct Hf as [Hf|Hf]; exact (i_F_range _ _ _ HI _ _ Hf).
  - intros x f H Hn. sred. ucase; auto. exact (i_F_unrel _ _ _ HI _ _ H Hn).
  - intros x b H. sred. destruct (i_F_buf _ _ _ HI _ _ H) as (? & ? & ?). ucase; auto.
  - intros n x b H. sred. ucase; [exfalso; eapply N1; eauto|]. exact (i_F_sop _ _ _ HI _ _ _ H).
  - intros n x dv k H. sred. pose proof (i_F_op _ _ _ HI _ _ _ _ H) as Hk.
    ucase; [exfalso; eapply N2; eauto|]. exact Hk.
  - intros x H. sred. pose proof (i_F_fin _ _ _ HI _ H). ucase; auto. destruct Hf; congruence.
  - intros x H. sred. ucase; try congruence. exact (i_D_fetched _ _ _ HI _ H).
  - intros x Hx H. sred. destruct (i_M_safe _ _ _ HI x Hx H) as [? [?|?]]; auto. ucase; auto.
    destruct Hf; congruence.
  - intros x k H. sred. destruct (i_M_queue _ _ _ HI _ _ H) as [? Hk]. split; auto. intros E. specialize (Hk E).
    ucase; auto. destruct Hf; congruence.
Qed.

(** The part of fetch_completed that gives the buffer back. *)
Definition release_buf (st : nat) (s0 : state V) : state V :=
  match fbuf s0 st with
  | Some b => return_fbuf b (set_fbuf (upd (fbuf s0) st None) s0)
  | None => s0
  end.

Lemma fetch_completed_eq st ok s0 : fetch_completed c st ok s0 =
  (let s := release_buf st s0 in
  if ok then
    set_ffin (ffin s ++ [(st, true)])
      (set_fret (upd (fret s) st 0) (set_fsts (upd (fsts s) st (Some FFetched)) s))
  else if fret s st <? MAX_FETCH_RETRIES then
    set_fsts (upd (fsts s) st (Some FQueued))
      (set_fq (fq s ++ [st]) (set_fret (upd (fret s) st (S (fret s st))) s))
  else if st <? nst c then
    set_ffin (ffin s ++ [(st, false)])
      (set_fret (upd (fret s) st 0)
        (set_fsts (upd (fsts s) st None)
          (set_shf (upd (shf s) st Failed) s)))
  else set_panic true s).
Proof. reflexivity. Qed.

Lemma inv_release_buf st s :
  Inv (as_fetching st s) -> no_op s st ->
  Inv (as_fetching st (release_buf st s)) /\ no_op (release_buf st s) st /\
  fbuf (release_buf st s) st = None /\ fsts (release_buf st s) = fsts s /\
  bh (release_buf st s) = bh s /\ shf (release_buf st s) = shf s /\ fret (release_buf st s) = fret s /\
  panic (release_buf st s) = panic s.
Proof.
  intros HI HN. unfold release_buf. destruct (fbuf s st) as [b|] eqn:Eb; [|tauto].
  destruct (i_F_buf _ _ _ HI st b Eb) as (_ & Hu & Hb). change (fuse s b = true) in Hu. unfold return_fbuf. sred.
  rewrite Hu. destruct (Nat.ltb_spec b MAX_CONCURRENT_FETCHES); [|lia]. cbn [andb].
  assert (Hbs : forall st', st' <> st -> fbuf s st' <> Some b).
  { intros st' Hne E. apply Hne. exact (i_F_bufinj _ _ _ HI _ _ _ E Eb). }
  split; [|split; [exact HN|split; [cbn; unfold upd; rewrite Nat.eqb_refl; reflexivity|cbn; auto 10]]].
  unfold as_fetching. constructor; try frame HI.
  - intros x b' H'. sred. unfold upd in H' at 1. destruct (Nat.eqb_spec x st); [discriminate|].
    pose proof (i_F_buf _ _ _ HI x b' H') as Hx. unfold as_fetching in Hx. sred.
    unfold upd in Hx at 1 2. unfold upd at 1 2. destruct (Nat.eqb_spec x st); [congruence|].
    unfold upd. destruct (Nat.eqb_spec b' b) as [->|]; [destruct (Hbs x n H')|]. exact Hx.
  - intros x y b' H1 H2. sred. ucase; injs. exact (i_F_bufinj _ _ _ HI _ _ _ H1 H2).
  - destruct (i_F_pool _ _ _ HI) as [Hn Hp]. split; sred.
    + apply nodup_snoc; auto. intros Hi. destruct (Hp b Hi) as [Hx _]. cbn in Hx. congruence.
    + intros b' Hi. rewrite in_app_iff in Hi. destruct Hi as [Hi|[<-|[]]].
      * destruct (Hp b' Hi) as [X Y]. ucase; auto.
      * unfold upd. rewrite Nat.eqb_refl. auto.
  - intros n x b' H'. sred. pose proof (i_F_sop _ _ _ HI n x b' H') as [A B]. unfold as_fetching in A, B. sred.
    split; [exact A|]. unfold upd. destruct (Nat.eqb_spec x st) as [->|]; auto.
    exfalso. eapply (proj1 HN); eauto.
  - intros n x dv k H'. sred. pose proof (i_F_op _ _ _ HI n x dv k H') as [A B]. unfold as_fetching in B. sred.
    destruct (Nat.eq_dec x st) as [->|Hne]; [exfalso; eapply (proj2 HN); eauto|].
    split; auto. destruct k; auto. unfold upd at 1. destruct (Nat.eqb_spec x st); [congruence|]. exact B.
Qed.

Lemma inv_fetch_completed st ok s :
  Inv (as_fetching st s) -> no_op s st -> (ok = true -> durable c s st) ->
  Inv (fetch_completed c st ok s).
Proof.
  intros HI0 HN0 Hd. rewrite fetch_completed_eq.
  destruct (inv_release_buf st s HI0 HN0) as (HI & HN & Hfb & _ & Hbh & _).
  assert (Hdur : ok = true -> durable c (release_buf st s) st).
  { intros E x Hx. rewrite Hbh. apply Hd; auto. }
  clear Hd Hbh HI0 HN0. set (s1 := release_buf st s) in *. clearbody s1. clear s. cbv zeta.
  assert (Hfs : fsts (as_fetching st s1) st = Some FFetching) by (cbn; unfold upd; rewrite Nat.eqb_refl; auto).
  assert (Hne : forall x, x <> st -> fsts (as_fetching st s1) x = fsts s1 x).
  { intros x Hx. cbn. unfold upd. destruct (Nat.eqb_spec x st); congruence. }
  destruct (i_F_range _ _ _ HI _ _ Hfs) as [Hst Hsrc].
  assert (Hu : released (shf s1 st) = false).
  { apply (i_F_unrel _ _ _ HI st _ Hfs). congruence. }
  assert (Hnq : ~ In st (fq s1)).
  { intros Hi. apply (proj2 (i_F_queue _ _ _ HI)) in Hi. congruence. }
  assert (Hnfin : ~ In (st, true) (ffin s1)).
  { intros Hi. pose proof (i_F_fin _ _ _ HI st Hi). congruence. }
  assert (Hsafe : has_flag FLAG_FETCHED (hdrs s1 st) = true \/
     (exists e, In e (mh s1 (group_of c st)) /\ has_flag FLAG_FETCHED (snd e st) = true) -> False).
  { intros H. destruct (i_M_safe _ _ _ HI st Hst H) as [_ [Hx|Hx]]; [cbn in Hx|]; congruence. }
  destruct ok.
  - (* success *)
    specialize (Hdur eq_refl).
    constructor; try frame HI.
    + destruct (i_F_queue _ _ _ HI) as [Hn Hq]. split; auto. intros x. sred. rewrite Hq. cbn. ucase; [|tauto].
      split; congruence.
    + intros x f H. sred. ucase; [auto|]. apply (i_F_range _ _ _ HI x f). cbn. unfold upd. destruct (Nat.eqb_spec x st); congruence.
    + intros x f H Hn. sred. ucase; try congruence. apply (i_F_unrel _ _ _ HI x f); auto. rewrite Hne; auto.
    + intros x b H. sred. destruct (Nat.eq_dec x st) as [->|Hx]; [congruence|].
      destruct (i_F_buf _ _ _ HI x b H) as (A & B & C). rewrite Hne in A by auto. ucase; try congruence. auto.
    + intros n x b H. sred. destruct (Nat.eq_dec x st) as [->|Hx]; [exfalso; eapply (proj1 HN); eauto|].
      destruct (i_F_sop _ _ _ HI n x b H) as [A B]. rewrite Hne in A by auto. ucase; try congruence. auto.
    + intros n x dv k H. sred. destruct (Nat.eq_dec x st) as [->|Hx]; [exfalso; eapply (proj2 HN); eauto|].
      destruct (i_F_op _ _ _ HI n x dv k H) as [A B]. rewrite Hne in B by auto. ucase; try congruence. auto.
    + intros x. sred. ucase; [unfold MAX_FETCH_RETRIES; lia|]. exact (i_F_ret _ _ _ HI x).
    + intros x H. sred. rewrite in_app_iff in H. ucase; auto. destruct H as [H|[H|[]]]; [|congruence].
      pose proof (i_F_fin _ _ _ HI x H) as A. rewrite Hne in A; auto.
    + intros x H. sred. ucase; [right; exact Hdur|]. apply (i_D_fetched _ _ _ HI x). rewrite Hne; auto.
    + intros x Hx H. sred. destruct (Nat.eq_dec x st) as [->|Hxs]; [exfalso; auto|].
      destruct (i_M_safe _ _ _ HI x Hx H) as [? A]. rewrite Hne in A by auto. ucase; try congruence. auto.
    + intros x k H. sred. destruct (i_M_queue _ _ _ HI _ _ H) as [? Hk]. split; auto. intros E. specialize (Hk E).
      ucase; auto. rewrite Hne in Hk; auto.
  - destruct (Nat.ltb_spec (fret s1 st) MAX_FETCH_RETRIES) as [Hr|Hr].
    + (* retry *)
      constructor; try frame HI.
      * destruct (i_F_queue _ _ _ HI) as [Hn Hq]. split; sred.
        -- apply nodup_snoc; auto.
        -- intros x. rewrite in_app_iff. ucase; [cbn; tauto|]. rewrite <- (Hne x) by auto. rewrite <- Hq. cbn.
           intuition congruence.
      * intros x f H. sred. ucase; [auto|]. apply (i_F_range _ _ _ HI x f). rewrite Hne; auto.
      * intros x f H Hn. sred. ucase; auto. apply (i_F_unrel _ _ _ HI x f); auto. rewrite Hne; auto.
      * intros x b H. sred. destruct (Nat.eq_dec x st) as [->|Hx]; [congruence|].
        destruct (i_F_buf _ _ _ HI x b H) as (A & B & C). rewrite Hne in A by auto. ucase; try congruence. auto.
      * intros n x b H. sred. destruct (Nat.eq_dec x st) as [->|Hx]; [exfalso; eapply (proj1 HN); eauto|].
        destruct (i_F_sop _ _ _ HI n x b H) as [A B]. rewrite Hne in A by auto. ucase; try congruence. auto.
      * intros n x dv k H. sred. destruct (Nat.eq_dec x st) as [->|Hx]; [exfalso; eapply (proj2 HN); eauto|].
        destruct (i_F_op _ _ _ HI n x dv k H) as [A B]. rewrite Hne in B by auto. ucase; try congruence. auto.
      * intros x. sred. ucase; [lia|]. exact (i_F_ret _ _ _ HI x).
      * intros x H. sred. ucase; [exfalso; auto|]. pose proof (i_F_fin _ _ _ HI x H) as A. rewrite Hne in A; auto.
      * intros x H. sred. ucase; try congruence. apply (i_D_fetched _ _ _ HI x). rewrite Hne; auto.
      * intros x Hx H. sred. destruct (Nat.eq_dec x st) as [->|Hxs]; [exfalso; auto|].
        destruct (i_M_safe _ _ _ HI x Hx H) as [? A]. rewrite Hne in A by auto. ucase; try congruence. auto.
      * intros x k H. sred. destruct (i_M_queue _ _ _ HI _ _ H) as [? Hk]. split; auto. intros E. specialize (Hk E).
        ucase; try congruence. rewrite Hne in Hk; auto.
    + (* out of retries *)
      destruct (Nat.ltb_spec st (nst c)); [|lia].
      constructor; try frame HI.
      * destruct (i_F_queue _ _ _ HI) as [Hn Hq]. split; auto. intros x. sred. rewrite Hq. cbn. ucase; [|tauto].
        split; congruence.
      * intros x f H'. sred. ucase; try congruence. apply (i_F_range _ _ _ HI x f). rewrite Hne; auto.
      * intros x f H' Hn. sred. ucase; try congruence. apply (i_F_unrel _ _ _ HI x f); auto. rewrite Hne; auto.
      * intros x b H'. sred. destruct (Nat.eq_dec x st) as [->|Hx]; [congruence|].
        destruct (i_F_buf _ _ _ HI x b H') as (A & B & C). rewrite Hne in A by auto. ucase; try congruence. auto.
      * intros n x b H'. sred. destruct (Nat.eq_dec x st) as [->|Hx]; [exfalso; eapply (proj1 HN); eauto|].
        destruct (i_F_sop _ _ _ HI n x b H') as [A B]. rewrite Hne in A by auto. ucase; try congruence. auto.
      * intros n x dv k H'. sred. destruct (Nat.eq_dec x st) as [->|Hx]; [exfalso; eapply (proj2 HN); eauto|].
        destruct (i_F_op _ _ _ HI n x dv k H') as [A B]. rewrite Hne in B by auto. ucase; try congruence. auto.
      * intros x. sred. ucase; [unfold MAX_FETCH_RETRIES; lia|]. exact (i_F_ret _ _ _ HI x).
      * intros x H'. sred. rewrite in_app_iff in H'. destruct H' as [H'|[H'|[]]]; [|congruence].
        ucase; [exfalso; auto|]. pose proof (i_F_fin _ _ _ HI x H') as A. rewrite Hne in A; auto.
      * intros x H'. sred. ucase; try congruence. apply (i_D_fetched _ _ _ HI x). rewrite Hne; auto.
      * intros x. destruct (i_M_shf _ _ _ HI x) as [A B]. sred. ucase; [split; [auto|lia]|]. auto.
      * intros x Hx H'. sred. destruct (Nat.eq_dec x st) as [->|Hxs]; [exfalso; auto|].
        destruct (i_M_safe _ _ _ HI x Hx H') as [? A]. rewrite Hne in A by auto. ucase; try congruence. auto.
      * intros x k H'. sred. destruct (i_M_queue _ _ _ HI _ _ H') as [? Hk]. split; auto. intros E. specialize (Hk E).
        ucase; try congruence. rewrite Hne in Hk; auto.
      * intros x H'. sred. ucase; [discriminate|]. exact (i_M_ackF _ _ _ HI x H').
      * intros x u H'. sred. destruct (i_M_upd _ _ _ HI x u H') as (A1 & A2 & A3 & A4 & A5 & A6). sred.
        repeat (split; [assumption|]). destruct A6 as [[A6 A7]|A6]; [left; split; auto|right; auto].
        ucase; [discriminate|auto].
      * intros n q id dv k H'. sred. pose proof (i_G_op _ _ _ HI n q id dv k H') as A.
        assert (T : forall w off len, touch_ok c (as_fetching st s1) w off len ->
                    touch_ok c (set_ffin (ffin s1 ++ [(st, false)]) (set_fret (upd (fret s1) st 0)
                       (set_fsts (upd (fsts s1) st None) (set_shf (upd (shf s1) st Failed) s1)))) w off len).
        { intros w off len T i Hi. destruct (T i Hi) as [T1 T2]. unfold as_fetching in T1, T2. sred.
          unfold upd. destruct (Nat.eqb_spec ((off + i) / ssc c) st) as [e|]; [|auto]. rewrite e in T1. congruence. }
        destruct dv, k; try exact A; try (apply T; exact A).
        destruct A as [A1 A2]. split; [exact A1|apply T; exact A2].
      * intros x Hx Hn' Hs' Hr'. apply (i_cover _ _ _ HI x Hx Hn' Hs'). sred. revert Hr'. unfold upd.
        destruct (Nat.eqb_spec (x / ssc c) st) as [->|]; [intros _|auto]. apply (i_F_unrel _ _ _ HI st FFetching); [|discriminate].
        unfold as_fetching. sred. apply upd_eq.
Qed.

(** ** Requests for stripes *)

Lemma inv_handle_fetch_request st s : Inv s -> st < nst c -> Inv (handle_fetch_request c st s).
Proof.
  intros HI Hst. unfold handle_fetch_request. destruct (Nat.ltb_spec st (nst c)); [|lia].
  destruct (released (shf s st)) eqn:Er; auto. destruct (fsts s st) eqn:Ef; auto.
  assert (Hs : hsrc st = true).
  { pose proof (proj1 (i_M_shf _ _ _ HI st) Hst) as A. destruct (shf s st); auto; discriminate. }
  assert (Hnq : ~ In st (fq s)).
  { intros Hi. apply (proj2 (i_F_queue _ _ _ HI)) in Hi. congruence. }
  constructor; try frame HI.
  - destruct (i_F_queue _ _ _ HI) as [Hn Hq]. split; sred; [apply nodup_snoc; auto|].
    intros x. rewrite in_app_iff. ucase; [cbn; tauto|]. rewrite <- Hq. cbn. intuition congruence.
  - intros x f H1. sred. ucase; [auto|]. exact (i_F_range _ _ _ HI _ _ H1).
  - intros x f H1 Hn. sred. ucase; auto. exact (i_F_unrel _ _ _ HI _ _ H1 Hn).
  - intros x b H1. sred. destruct (i_F_buf _ _ _ HI _ _ H1) as (A & ? & ?). ucase; auto.
    destruct A; congruence.
  - intros n x b H1. sred. destruct (i_F_sop _ _ _ HI _ _ _ H1). ucase; [congruence|auto].
  - intros n x dv k H1. sred. pose proof (i_F_op _ _ _ HI _ _ _ _ H1) as Hk.
    ucase; [|exact Hk]. destruct Hk as [_ Hk]. destruct k; try tauto.
    + destruct Hk as (_ & _ & _ & ?). congruence.
    + congruence.
  - intros x H1. sred. pose proof (i_F_fin _ _ _ HI _ H1). ucase; congruence.
  - intros x H1. sred. ucase; [congruence|]. exact (i_D_fetched _ _ _ HI _ H1).
  - intros x Hx H1. sred. destruct (i_M_safe _ _ _ HI x Hx H1) as [? A]. ucase; auto.
    split; auto. destruct A; congruence.
  - intros x k H1. sred. destruct (i_M_queue _ _ _ HI _ _ H1) as [? Hk]. split; auto. intros E. specialize (Hk E).
    ucase; congruence.
Qed.

Lemma inv_set_fauto l s : Inv s -> (forall st, In st l -> st < nst c) -> Inv (set_fauto l s).
Proof. intros HI H. constructor; try frame HI. exact H. Qed.

Lemma inv_update_autofetch s : Inv s -> Inv (update_autofetch c s).
Proof.
  intros HI. unfold update_autofetch. destruct (autofetch c); auto. destruct (fq s); auto.
  destruct (fauto s) as [|st r] eqn:E; auto.
  pose proof (i_F_auto _ _ _ HI) as Ha. unfold F_auto in Ha. rewrite E in Ha.
  apply inv_handle_fetch_request; [apply inv_set_fauto; auto|]; [intros x Hx|]; apply Ha; cbn; auto.
Qed.

Lemma inv_set_mq l s : Inv s -> (forall st, In (BFetch st) l \/ In (BSetWritten st) l -> st < nst c) -> Inv (set_mq l s).
Proof. intros HI H. constructor; try frame HI. exact H. Qed.

Lemma inv_set_mqueue l s : Inv s ->
  (forall st k, In (st, k) l -> st < nst c /\ (k = SetFetched -> fsts s st = Some FFetched)) -> Inv (set_mqueue l s).
Proof. intros HI H. constructor; try frame HI. exact H. Qed.

Lemma inv_worker_recv s : Inv s -> Inv (worker_recv c s).
Proof.
  intros HI. unfold worker_recv. destruct (mq s) as [|[st|st] r] eqn:E; auto;
    pose proof (i_F_mq _ _ _ HI) as Ha; unfold F_mq in Ha; rewrite E in Ha;
    assert (HI1 : Inv (set_mq r s)) by (apply inv_set_mq; [auto|intros x Hx; apply Ha; cbn; tauto]).
  - apply inv_handle_fetch_request; auto. apply Ha. cbn; auto.
  - cbv zeta. apply inv_set_mqueue; auto. intros x k Hi. rewrite in_app_iff in Hi. destruct Hi as [Hi|[Hi|[]]].
    + exact (i_M_queue _ _ _ HI _ _ Hi).
    + injection Hi as <- <-. split; [|discriminate]. apply Ha. cbn; auto.
Qed.

Lemma inv_take_finished_fetches s : Inv s -> Inv (take_finished_fetches s).
Proof.
  intros HI. unfold take_finished_fetches. 
  assert (HI1 : Inv (set_ffin [] s)).
  { constructor; try frame HI. intros st []. }
  apply inv_set_mqueue; auto. intros x k Hi. rewrite in_app_iff in Hi. destruct Hi as [Hi|Hi].
  - exact (i_M_queue _ _ _ HI _ _ Hi).
  - apply in_map_iff in Hi. destruct Hi as ([st b] & E & Hi). apply filter_In in Hi. destruct Hi as [Hi Hb].
    cbn in *. injection E as <- <-. subst b. pose proof (i_F_fin _ _ _ HI _ Hi) as A.
    split; [|intros _; exact A]. exact (proj1 (i_F_range _ _ _ HI _ _ A)).
Qed.

Lemma inv_disconnect s : Inv s -> Inv (disconnect s).
Proof. intros HI. unfold disconnect. destruct (_ && _); auto. constructor; frame HI. Qed.

(** ** Starting a fetch *)

Definition take_buf (st b : nat) (q av : list nat) (s : state V) : state V :=
  set_fbuf (upd (fbuf s) st (Some b)) (set_fuse (upd (fuse s) b true) (set_favail av (set_fq q s))).

Lemma no_op_of_status s st f : Inv s -> fsts s st = f -> f <> Some FFetching -> f <> Some FFlushing -> no_op s st.
Proof.
  intros HI <- H1 H2. split.
  - intros n b H. apply H1. exact (proj1 (i_F_sop _ _ _ HI _ _ _ H)).
  - intros n dv k H. destruct (i_F_op _ _ _ HI _ _ _ _ H) as [_ A]. destruct k; tauto.
Qed.

Lemma inv_take_buf s st b q av : Inv s -> fq s = st :: q -> favail s = b :: av ->
  Inv (as_fetching st (take_buf st b q av s)) /\ no_op (take_buf st b q av s) st.
Proof.
  intros HI Eq Ea.
  destruct (i_F_queue _ _ _ HI) as [Hnd Hq]. rewrite Eq in Hnd, Hq. inversion_clear Hnd as [|? ? Hnq Hnd'].
  assert (Hf : fsts s st = Some FQueued) by (apply Hq; cbn; auto).
  destruct (i_F_pool _ _ _ HI) as [Hpd Hp]. rewrite Ea in Hpd, Hp. inversion_clear Hpd as [|? ? Hnp Hpd'].
  destruct (Hp b) as [Hbu Hb]; [cbn; auto|].
  assert (HN : no_op s st) by (apply (no_op_of_status s st _ HI Hf); congruence).
  assert (Hu : released (shf s st) = false) by (apply (i_F_unrel _ _ _ HI _ _ Hf); congruence).
  split; [|exact HN]. unfold as_fetching, take_buf. constructor; try frame HI.
  - split; sred; auto. intros x. specialize (Hq x). cbn in Hq. ucase.
    + split; [tauto|congruence].
    + rewrite <- Hq. intuition congruence.
  - intros x f H. sred. ucase; [|exact (i_F_range _ _ _ HI _ _ H)]. exact (i_F_range _ _ _ HI _ _ Hf).
  - intros x f H Hn. sred. ucase; auto. exact (i_F_unrel _ _ _ HI _ _ H Hn).
  - intros x b' H. sred. unfold upd in H at 1. unfold upd at 1 2. destruct (Nat.eqb_spec x st).
    + injection H as <-. unfold upd. rewrite Nat.eqb_refl. auto.
    + destruct (i_F_buf _ _ _ HI _ _ H) as (A & B & C). unfold upd. destruct (Nat.eqb_spec b' b); auto.
  - intros x y b' H1 H2. sred.
    assert (X : forall z, fbuf s z <> Some b).
    { intros z Hz. destruct (i_F_buf _ _ _ HI _ _ Hz) as (_ & B & _). congruence. }
    unfold upd in H1, H2. destruct (Nat.eqb_spec x st), (Nat.eqb_spec y st); try congruence.
    exact (i_F_bufinj _ _ _ HI _ _ _ H1 H2).
  - split; sred; auto. intros b' Hi. destruct (Hp b') as [A B]; [cbn; auto|]. split; auto.
    unfold upd. destruct (Nat.eqb_spec b' b); auto. subst. tauto.
  - intros n x b' H. sred. destruct (i_F_sop _ _ _ HI _ _ _ H) as [A B]. ucase; [congruence|auto].
  - intros n x dv k H. sred. pose proof (i_F_op _ _ _ HI _ _ _ _ H) as Hk. unfold upd. 
    destruct (Nat.eqb_spec x st); [subst; exfalso; eapply (proj2 HN); eauto|]. exact Hk.
  - intros x H. sred. pose proof (i_F_fin _ _ _ HI _ H). ucase; auto. congruence.
  - intros x H. sred. ucase; [congruence|]. exact (i_D_fetched _ _ _ HI _ H).
  - intros x Hx H. sred. destruct (i_M_safe _ _ _ HI x Hx H) as [? A]. ucase; auto.
    split; auto. destruct A; [auto|congruence].
  - intros x k H. sred. destruct (i_M_queue _ _ _ HI _ _ H) as [? Hk]. split; auto. intros E. specialize (Hk E).
    ucase; auto. congruence.
Qed.

Lemma inv_bump s : Inv s -> Inv (set_next (S (next s)) s).
Proof.
  intros HI. constructor; try frame HI.
  - intros; cbn. unfold N_pos. cbn. lia.
  - intros n o H. sred. pose proof (i_N_ops _ _ _ HI _ _ H). lia.
  - intros n o H. sred. pose proof (i_N_sops _ _ _ HI _ _ H). lia.
  - intros n o H. sred. pose proof (i_N_mops _ _ _ HI _ _ H). lia.
  - intros n H. sred. pose proof (i_N_bd _ _ _ HI _ H). lia.
Qed.

Lemma inv_add_sop s st b n : Inv s -> no_op s st -> fsts s st = Some FFetching -> fbuf s st = Some b ->
  n < next s -> Inv (set_sops (upd (sops s) n (Some (st, b))) s).
Proof.
  intros HI HN Hf Hb Hn. constructor; try frame HI.
  - intros m o H. sred. ucase; auto. exact (i_N_sops _ _ _ HI _ _ H).
  - intros m x b' H. sred. ucase; [injs; auto|]. exact (i_F_sop _ _ _ HI _ _ _ H).
  - intros m m' x b1 b2 H1 H2. sred. unfold upd in H1, H2.
    destruct (Nat.eqb_spec m n), (Nat.eqb_spec m' n); try congruence.
    + injection H1 as <- <-. exfalso. eapply (proj1 HN); eauto.
    + injection H2 as <- <-. exfalso. eapply (proj1 HN); eauto.
    + exact (i_F_uniq_sop _ _ _ HI _ _ _ _ _ H1 H2).
  - intros m m' x b1 dv k H1 H2. sred. unfold upd in H1. destruct (Nat.eqb_spec m n).
    + injection H1 as <- <-. eapply (proj2 HN); eauto.
    + exact (i_F_uniq _ _ _ HI _ _ _ _ _ _ H1 H2).
Qed.

Lemma inv_start_fetch a s : Inv s -> Inv (start_fetch c a s).
Proof.
  intros HI. unfold start_fetch. destruct (fq s) as [|st q] eqn:Eq; auto. destruct (favail s) as [|b av] eqn:Ea; auto.
  cbv zeta. fold (take_buf st b q av s). destruct (inv_take_buf s st b q av HI Eq Ea) as [HI1 HN].
  destruct (source_accepts c a st (take_buf st b q av s)).
  - apply (inv_add_sop (as_fetching st (set_next (S (next s)) (take_buf st b q av s))) st b (next s)).
    + apply (inv_bump _ HI1).
    + exact HN.
    + cbn. unfold upd. rewrite Nat.eqb_refl. auto.
    + cbn. unfold upd. rewrite Nat.eqb_refl. auto.
    + cbn. lia.
  - apply inv_fetch_completed; auto. discriminate.
Qed.

(** ** Completions of the source *)

Lemma inv_set_bufs s b f : Inv s ->
  (forall n st dv off len ap, ops s n <> Some (mk_op (OFetch st) dv (KWrite off len (WBuf b) ap))) ->
  Inv (set_bufs (upd (bufs s) b f) s).
Proof.
  intros HI H. constructor; try frame HI.
  intros n st dv off len b' ap H1 i Hi. sred. unfold upd. destruct (Nat.eqb_spec b' b) as [->|].
  - exfalso. eapply H; eauto.
  - exact (i_D_buf _ _ _ HI _ _ _ _ _ _ _ H1 i Hi).
Qed.

Lemma no_writer s st b : Inv s -> fbuf s st = Some b -> (forall n dv k, ops s n <> Some (mk_op (OFetch st) dv k)) ->
  forall n st dv off len ap, ops s n <> Some (mk_op (OFetch st) dv (KWrite off len (WBuf b) ap)).
Proof.
  intros HI Hb HN n st' dv off len ap H.
  destruct (i_F_op _ _ _ HI _ _ _ _ H) as (_ & _ & _ & (b' & Eb & Hb') & _). injection Eb as <-.
  rewrite (i_F_bufinj _ _ _ HI _ _ _ Hb' Hb) in H. eapply HN; eauto.
Qed.

Lemma inv_scribble s n i v : Inv s -> Inv (scribble n i v s).
Proof.
  intros HI. unfold scribble. destruct (sops s n) as [[st b]|] eqn:E; auto.
  apply inv_set_bufs; auto. apply (no_writer s st b HI); [exact (proj2 (i_F_sop _ _ _ HI _ _ _ E))|].
  intros m dv k. exact (i_F_uniq _ _ _ HI _ _ _ _ _ _ E).
Qed.

Lemma inv_remove_sop s n : Inv s -> Inv (set_sops (upd (sops s) n None) s).
Proof.
  intros HI. constructor; try frame HI.
  - intros m o H. sred. ucase; injs. exact (i_N_sops _ _ _ HI _ _ H).
  - intros m x b' H. sred. ucase; injs. exact (i_F_sop _ _ _ HI _ _ _ H).
  - intros m m' x b1 b2 H1 H2. sred. ucase; injs. exact (i_F_uniq_sop _ _ _ HI _ _ _ _ _ H1 H2).
  - intros m m' x b1 dv k H1 H2. sred. ucase; injs. exact (i_F_uniq _ _ _ HI _ _ _ _ _ _ H1 H2).
Qed.

Lemma inv_add_write s st b n : Inv s -> no_op s st -> fsts s st = Some FFetching -> fbuf s st = Some b ->
  n < next s -> ops s n = None ->
  (forall i, i < Nat.min (ssc c) (target c - st * ssc c) -> bufs s b i = image c (st * ssc c + i)) ->
  Inv (set_ops (upd (ops s) n (Some (mk_op (OFetch st) DBase
    (KWrite (st * ssc c) (Nat.min (ssc c) (target c - st * ssc c)) (WBuf b) (fun _ => false))))) s).
Proof.
  intros HI HN Hf Hb Hn He Hbuf. constructor; try frame HI.
  - intros m o H. sred. ucase; auto. exact (i_N_ops _ _ _ HI _ _ H).
  - intros m x dv k H. sred. unfold upd in H. destruct (Nat.eqb_spec m n).
    + injection H as <- <- <-. repeat split; auto. exists b; auto.
    + exact (i_F_op _ _ _ HI _ _ _ _ H).
  - intros m m' x dv1 dv2 k1 k2 H1 H2. sred. unfold upd in H1, H2.
    destruct (Nat.eqb_spec m n), (Nat.eqb_spec m' n); try congruence.
    + injection H1 as <- <- <-. exfalso. eapply (proj2 HN); eauto.
    + injection H2 as <- <- <-. exfalso. eapply (proj2 HN); eauto.
    + exact (i_F_uniq_op _ _ _ HI _ _ _ _ _ _ _ H1 H2).
  - intros m m' x b1 dv k H1 H2. sred. unfold upd in H2. destruct (Nat.eqb_spec m' n).
    + injection H2 as <- <- <-. eapply (proj1 HN); eauto.
    + exact (i_F_uniq _ _ _ HI _ _ _ _ _ _ H1 H2).
  - intros m x dv off len b' ap H. sred. unfold upd in H. destruct (Nat.eqb_spec m n).
    + injection H as <- <- <- <- <- <-. exact Hbuf.
    + exact (i_D_buf _ _ _ HI _ _ _ _ _ _ _ H).
  - intros m x dv off len b' ap H. sred. unfold upd in H. destruct (Nat.eqb_spec m n).
    + injection H as <- <- <- <- <- <-. discriminate.
    + exact (i_D_applied _ _ _ HI _ _ _ _ _ _ _ H).
  - intros m x dv snap H. sred. unfold upd in H. destruct (Nat.eqb_spec m n); [discriminate|].
    exact (i_D_flush _ _ _ HI _ _ _ _ H).
  - intros m q id dv k H. sred. unfold upd in H. destruct (Nat.eqb_spec m n); [discriminate|].
    exact (i_G_op _ _ _ HI _ _ _ _ _ H).
Qed.

Lemma ops_next s n : Inv s -> next s <= n -> ops s n = None.
Proof.
  intros HI H. destruct (ops s n) eqn:E; auto. pose proof (i_N_ops _ _ _ HI _ _ E). lia.
Qed.

Lemma inv_src_done n ok s : Inv s -> Inv (src_done c n ok s).
Proof.
  intros HI. unfold src_done. destruct (sops s n) as [[st b]|] eqn:E; auto.
  destruct (i_F_sop _ _ _ HI _ _ _ E) as [Hf Hb].
  set (s1 := set_sops (upd (sops s) n None) s). assert (HI1 : Inv s1) by (apply inv_remove_sop; auto).
  assert (HN : no_op s1 st).
  { split; subst s1; sred.
    - intros m b' H. unfold upd in H. destruct (Nat.eqb_spec m n); [discriminate|].
      apply n0. exact (i_F_uniq_sop _ _ _ HI _ _ _ _ _ H E).
    - intros m dv k. exact (i_F_uniq _ _ _ HI _ _ _ _ _ _ E). }
  assert (Hf1 : fsts s1 st = Some FFetching) by exact Hf.
  assert (Hb1 : fbuf s1 st = Some b) by exact Hb.
  clearbody s1. clear E Hf Hb HI s n. cbv zeta. destruct (i_F_range _ _ _ HI1 _ _ Hf1) as [Hst Hs].
  destruct ok.
  - set (s2 := set_bufs (upd (bufs s1) b (filled c st (bufs s1 b))) s1).
    assert (HI2 : Inv s2) by (apply inv_set_bufs; auto; eapply no_writer; eauto; exact (proj2 HN)).
    change (fbuf s2 st) with (fbuf s1 st). rewrite Hb1. unfold start_write.
    pose proof (wf_target _ WF st Hst) as Ht. destruct (Nat.ltb_spec (target c) (st * ssc c)); [lia|]. cbv zeta.
    refine (inv_add_write (set_next (S (next s2)) s2) st b (next s2) (inv_bump _ HI2) HN Hf1 Hb1 _ _ _).
    + cbn. lia.
    + exact (ops_next s2 _ HI2 (le_n _)).
    + intros i Hi. subst s2. cbn. unfold upd. rewrite Nat.eqb_refl. unfold filled.
      destruct (Nat.ltb_spec i (ssc c)); [|lia]. cbn [andb].
      destruct (fetch_sector_in st i Hi) as [X Y].
      destruct (i_cover _ _ _ HI1 (st * ssc c + i)) as [Z|[Z _]]; try (rewrite X; auto); auto.
      { exact (i_F_unrel _ _ _ HI1 _ _ Hf1 ltac:(discriminate)). }
      * destruct (Nat.ltb_spec (st * ssc c + i) (src c)); [|lia]. rewrite orb_true_r. auto.
      * rewrite Z. auto.
  - rewrite Hb1. apply inv_fetch_completed; auto; [|discriminate].
    apply inv_as_fetching; auto.
Qed.

(** ** Completions of the base device *)

Lemma inv_add_flush s st n w : Inv s -> no_op s st -> fsts s st = Some FFetching ->
  n < next s -> bdone s w = true ->
  (forall x, in_stripe c st x -> exists l, bh s x = (w, image c x) :: l) ->
  Inv (set_fsts (upd (fsts s) st (Some FFlushing))
        (set_ops (upd (ops s) n (Some (mk_op (OFetch st) DBase (KFlush (bdone s))))) s)).
Proof.
  intros HI HN Hf Hn Hw Hd. assert (Hu : released (shf s st) = false) by (apply (i_F_unrel _ _ _ HI _ _ Hf); congruence).
  constructor; try frame HI.
  - intros m o H. sred. ucase; auto. exact (i_N_ops _ _ _ HI _ _ H).
  - destruct (i_F_queue _ _ _ HI) as [Hnd Hq]. split; auto. intros x. sred. rewrite Hq. ucase; [|tauto]. split; congruence.
  - intros x f H. sred. ucase; [|exact (i_F_range _ _ _ HI _ _ H)]. exact (i_F_range _ _ _ HI _ _ Hf).
  - intros x f H Hne. sred. ucase; auto. exact (i_F_unrel _ _ _ HI _ _ H Hne).
  - intros x b H. sred. destruct (i_F_buf _ _ _ HI _ _ H) as (A & B & C). ucase; auto.
  - intros m x b H. sred. destruct (i_F_sop _ _ _ HI _ _ _ H) as [A B]. ucase; auto.
    exfalso. eapply (proj1 HN); eauto.
  - intros m x dv k H. sred. unfold upd in H. destruct (Nat.eqb_spec m n).
    + injection H as <- <- <-. split; auto. unfold upd. rewrite Nat.eqb_refl. auto.
    + pose proof (i_F_op _ _ _ HI _ _ _ _ H) as Hk. unfold upd. destruct (Nat.eqb_spec x st); [|exact Hk].
      subst. exfalso. eapply (proj2 HN); eauto.
  - intros m m' x dv1 dv2 k1 k2 H1 H2. sred. unfold upd in H1, H2.
    destruct (Nat.eqb_spec m n), (Nat.eqb_spec m' n); try congruence.
    + injection H1 as <- <- <-. exfalso. eapply (proj2 HN); eauto.
    + injection H2 as <- <- <-. exfalso. eapply (proj2 HN); eauto.
    + exact (i_F_uniq_op _ _ _ HI _ _ _ _ _ _ _ H1 H2).
  - intros m m' x b1 dv k H1 H2. sred. unfold upd in H2. destruct (Nat.eqb_spec m' n).
    + injection H2 as <- <- <-. eapply (proj1 HN); eauto.
    + exact (i_F_uniq _ _ _ HI _ _ _ _ _ _ H1 H2).
  - intros x H. sred. pose proof (i_F_fin _ _ _ HI _ H). ucase; auto. congruence.
  - intros m x dv off len b' ap H. sred. unfold upd in H. destruct (Nat.eqb_spec m n); [discriminate|].
    exact (i_D_buf _ _ _ HI _ _ _ _ _ _ _ H).
  - intros m x dv off len b' ap H. sred. unfold upd in H. destruct (Nat.eqb_spec m n); [discriminate|].
    exact (i_D_applied _ _ _ HI _ _ _ _ _ _ _ H).
  - intros m x dv snap H. sred. unfold upd in H. destruct (Nat.eqb_spec m n).
    + injection H as <- <- <-. exists w. auto.
    + exact (i_D_flush _ _ _ HI _ _ _ _ H).
  - intros x H. sred. ucase; [congruence|]. exact (i_D_fetched _ _ _ HI _ H).
  - intros x Hx H. sred. destruct (i_M_safe _ _ _ HI x Hx H) as [? A]. ucase; auto.
    split; auto. destruct A; [auto|congruence].
  - intros x k H. sred. destruct (i_M_queue _ _ _ HI _ _ H) as [? Hk]. split; auto. intros E. specialize (Hk E).
    ucase; auto. congruence.
  - intros m q id dv k H. sred. unfold upd in H. destruct (Nat.eqb_spec m n); [discriminate|].
    exact (i_G_op _ _ _ HI _ _ _ _ _ H).
Qed.

Lemma inv_op_done n ok s : Inv s -> Inv (fst (op_done c n ok s)).
Proof.
  intros HI. unfold op_done. destruct (ops s n) as [[o d k]|] eqn:Eo; [|exact HI].
  destruct (ok && negb (completable c d k)) eqn:Ec; [exact HI|].
  pose proof (i_N_ops _ _ _ HI _ _ Eo) as Hn.
  assert (HI1 : Inv (set_ops (upd (ops s) n None) s)) by (apply inv_remove_op; auto).
  cbv zeta. destruct o as [q id|st]; cbn [fst].
  { destruct ok; auto. apply inv_complete_medium; auto. }
  destruct (wdone s); [exact HI|]. cbn [fst].
  destruct (i_F_op _ _ _ HI _ _ _ _ Eo) as [-> Hk].
  set (s1 := set_ops (upd (ops s) n None) s) in *.
  assert (HN : no_op s1 st).
  { split; subst s1; sred.
    - intros m b' H. exact (i_F_uniq _ _ _ HI _ _ _ _ _ _ H Eo).
    - intros m dv k' H. unfold upd in H. destruct (Nat.eqb_spec m n); [discriminate|].
      apply n0. exact (i_F_uniq_op _ _ _ HI _ _ _ _ _ _ _ H Eo). }
  assert (Hf : fsts s1 st = Some FFetching \/ fsts s1 st = Some FFlushing).
  { destruct k; [left|contradiction|right]; tauto. }
  unfold tgt_done. destruct ok.
  - cbn [andb] in Ec. apply negb_false_iff in Ec. destruct k as [off len d ap| |snap]; [|contradiction|].
    + destruct Hk as (-> & -> & (b & -> & Hb) & Hff). cbn [complete_medium].
      change (fsts (set_bdone (upd (bdone s1) n true) s1) st) with (fsts s st). rewrite Hff.
      unfold start_flush. cbv zeta.
      refine (inv_add_flush (set_next (S (next s)) (set_bdone (upd (bdone s1) n true) s1)) st (next s) n _ HN Hff _ _ _).
      * apply (inv_bump (set_bdone (upd (bdone s1) n true) s1)). apply inv_bdone; auto.
      * cbn. lia.
      * cbn. unfold upd. rewrite Nat.eqb_refl. auto.
      * intros x Hx. cbn. destruct (in_stripe_index st x Hx) as (i & -> & Hi).
        apply (i_D_applied _ _ _ HI _ _ _ _ _ _ _ Eo i Hi).
        cbn [completable dev_size] in Ec. apply (in_range_all_spec _ _ _ _ Ec); [auto|lia].
    + cbn [complete_medium]. change (fsts (set_bh _ s1) st) with (fsts s st). rewrite Hk.
      assert (HI2 : Inv (set_bh (fun x => trim snap (bh s1 x)) s1)) by (apply inv_trim; auto).
      apply inv_fetch_completed; auto.
      * apply inv_as_fetching; auto.
      * intros _ x Hx. destruct (i_D_flush _ _ _ HI _ _ _ _ Eo) as (w & Hw & Hb).
        destruct (Hb x Hx) as (l & El). exists w. cbn. rewrite El. apply trim_durable; auto.
  - apply inv_fetch_completed; auto; [|discriminate]. apply inv_as_fetching; auto.
Qed.

End FetchInv.
