(** Guest-side steps preserve the invariant. *)
From Coq Require Import List Arith NArith Bool Lia ZifyBool ZifyNat.
Import ListNotations.
From Verif Require Import Base BaseFacts DiskSpec LazyState MetadataModel LazyModel LazyInv LazyTac.

Section GuestInv.
Context {V : Type}.
Variable c : cfg V.
Variable hsrc : nat -> bool.
Hypothesis WF : wf c.

Notation Inv := (Inv c hsrc).

Lemma inv_panic s : Inv s -> Inv (set_panic true s).
Proof. intro HI. constructor; frame HI. Qed.

Lemma inv_chfin s x : Inv s -> Inv (set_chfin x s).
Proof. intro HI. constructor; frame HI. Qed.

Lemma inv_chreq s x : Inv s -> Inv (set_chreq x s).
Proof. intro HI. constructor; frame HI. Qed.

Lemma inv_wdone s x : Inv s -> Inv (set_wdone x s).
Proof. intro HI. constructor; frame HI. Qed.

Lemma inv_next s : Inv s -> Inv (set_next (S (next s)) s).
Proof.
  intro HI. constructor; try frame HI.
  all: red; sred; intros.
  - lia.
  - pose proof (i_N_ops _ _ _ HI _ _ H). lia.
  - pose proof (i_N_sops _ _ _ HI _ _ H). lia.
  - pose proof (i_N_mops _ _ _ HI _ _ H). lia.
  - pose proof (i_N_bd _ _ _ HI _ H). lia.
Qed.

Lemma inv_mq s l : Inv s -> (forall st, In (BFetch st) l \/ In (BSetWritten st) l -> st < nst c) ->
  Inv (set_mq (mq s ++ l) s).
Proof.
  intros HI Hl. constructor; try frame HI.
  intros st H. sred. rewrite !in_app_iff in H. pose proof (i_F_mq _ _ _ HI st). specialize (Hl st). tauto.
Qed.

Lemma inv_chq s q l : Inv s -> (forall r, In r l -> rq_req r <> RFlush) -> Inv (set_chq (upd (chq s) q l) s).
Proof.
  intros HI Hl. constructor; try frame HI.
  intros q' r H. sred. ucase; [auto|]. exact (i_G_queue _ _ _ HI _ _ H).
Qed.

Lemma inv_fail_req s q n id : Inv s -> Inv (fail_req q n id s).
Proof. intros. apply inv_chfin, H. Qed.

Lemma inv_enqueue s q r : Inv s -> rq_req r <> RFlush -> Inv (enqueue q r s).
Proof.
  intros HI H. apply inv_chq; auto. intros r' Hr. rewrite in_app_iff in Hr. destruct Hr as [Hr|[<-|[]]]; auto.
  exact (i_G_queue _ _ _ HI _ _ Hr).
Qed.

(** Sending fetch requests only changes the request channel and the queue's set
    of requested stripes. *)
Lemma ssf_spec q sts : forall (s : state V), exists cr l,
  fst (start_stripe_fetches c q sts s) = set_chreq cr (set_mq (mq s ++ l) s) /\
  (forall st, In (BFetch st) l \/ In (BSetWritten st) l -> st < nst c) /\
  (snd (start_stripe_fetches c q sts s) <> SendPanic -> forall st, In st sts -> snd (start_stripe_fetches c q sts s) = SendOk -> st < nst c).
Proof. clear hsrc WF.
  induction sts as [|st r IH]; intros s; cbn [start_stripe_fetches].
  - exists (chreq s), []. rewrite app_nil_r. destruct s; cbn; tauto.
  - destruct (Nat.ltb_spec st (nst c)).
    2:{ exists (chreq s), []. rewrite app_nil_r. destruct s; cbn; tauto. }
    destruct (negb (released (shf s st)) && negb (chreq s q st)).
    + destruct (wdone s).
      * exists (chreq s), []. rewrite app_nil_r. destruct s; cbn. split; [reflexivity|]. split; [tauto|].
        intros _ ? ? [=].
      * destruct (IH (set_chreq (upd (chreq s) q (upd (chreq s q) st true)) (set_mq (mq s ++ [BFetch st]) s)))
          as (cr & l & E & Hl & Hs).
        exists cr, (BFetch st :: l). rewrite E. sred. rewrite <- app_assoc. cbn [app].
        split; [reflexivity|]. split.
        -- intros x [[?|?]|[?|?]]; try congruence; apply Hl; auto.
        -- intros Hp x [<-|Hx] Ho; auto.
    + destruct (IH s) as (cr & l & E & Hl & Hs). exists cr, l. split; [exact E|]. split; [exact Hl|].
      intros Hp x [<-|Hx] Ho; auto.
Qed.

Lemma ssw_spec sts : forall (s : state V), exists l,
  fst (start_stripe_set_written c sts s) = set_mq (mq s ++ l) s /\
  (forall st, In (BFetch st) l \/ In (BSetWritten st) l -> st < nst c).
Proof. clear hsrc WF.
  induction sts as [|st r IH]; intros s; cbn [start_stripe_set_written].
  - exists []. rewrite app_nil_r. destruct s; cbn; tauto.
  - destruct (Nat.ltb_spec st (nst c)).
    2:{ exists []. rewrite app_nil_r. destruct s; cbn; tauto. }
    destruct (shw s st); [apply IH|].
    destruct (wdone s).
    + exists []. rewrite app_nil_r. destruct s; cbn; tauto.
    + destruct (IH (set_mq (mq s ++ [BSetWritten st]) s)) as (l & E & Hl).
      exists (BSetWritten st :: l). rewrite E. sred. rewrite <- app_assoc. cbn [app].
      split; [reflexivity|].
      intros x [[?|?]|[?|?]]; try congruence; apply Hl; auto.
Qed.

Lemma fetch_status_complete s sts : fetch_status c s sts = SComplete ->
  forall st, In st sts -> st < nst c /\ released (shf s st) = true.
Proof.
  induction sts as [|x r IH]; cbn [fetch_status]; intros H st Hs; [destruct Hs|].
  destruct (Nat.ltb_spec x (nst c)); [|discriminate].
  destruct Hs as [<-|Hs]; [split; [assumption|]|];
    destruct (shf s x) eqn:E; try discriminate; try reflexivity; apply IH; auto.
Qed.

Lemma fetch_status_pending s sts : fetch_status c s sts = SPending ->
  exists st, In st sts /\ st < nst c /\ shf s st = NotFetched.
Proof.
  induction sts as [|x r IH]; cbn [fetch_status]; intros H; [discriminate|].
  destruct (Nat.ltb_spec x (nst c)); [|discriminate].
  destruct (shf s x) eqn:E; try discriminate.
  - exists x. cbn; auto.
  - destruct (IH H) as (st & ? & ? & ?). exists st; cbn; auto.
  - destruct (IH H) as (st & ? & ? & ?). exists st; cbn; auto.
Qed.

Lemma stripes_written_true (s : state V) sts : stripes_written c s sts = Some true ->
  forall st, In st sts -> shw s st = true.
Proof.
  induction sts as [|x r IH]; cbn [stripes_written]; intros H st Hs; [destruct Hs|].
  destruct (Nat.ltb_spec x (nst c)); [|discriminate].
  destruct (shw s x) eqn:E; [|discriminate].
  destruct Hs as [<-|Hs]; auto.
Qed.

(** Every sector of a request lies in one of the stripes of its range. *)
Lemma stripes_of_in off len i : i < len -> In ((off + i) / ssc c) (stripes_of c off len).
Proof.
  intros Hi. unfold stripes_of, stripe_first, stripe_last.
  pose proof (wf_ssc _ WF) as Hs.
  destruct (Nat.eqb_spec (off + len) 0); [lia|].
  rewrite in_seq.
  assert (off / ssc c <= (off + i) / ssc c) by (apply Nat.div_le_mono; lia).
  assert ((off + i) / ssc c <= (off + len - 1) / ssc c) by (apply Nat.div_le_mono; lia).
  lia.
Qed.

(** Handing a request to the base or image channel. *)
Lemma inv_issue s n q id dv r :
  Inv s -> n < next s -> ops s n = None ->
  (match dv, r with
   | DBase, RRead off len => touch_ok c s false off len
   | DBase, RWrite off data => touch_ok c s true off (length data)
   | DBase, RFlush => True
   | DImage, RRead _ _ => has_image c = true
   | DImage, _ => False
   end) ->
  Inv (issue n q id dv r s).
Proof.
  intros HI Hn Ho Hr. unfold issue. constructor; try frame HI.
  - intros m o H. sred. ucase; injs; auto. exact (i_N_ops _ _ _ HI _ _ H).
  - intros m st dv' k H. sred. ucase; injs; [discriminate|].
    exact (i_F_op _ _ _ HI _ _ _ _ H).
  - intros m m' st dv1 dv2 k1 k2 H1 H2. sred. ucase; injs; try discriminate.
    exact (i_F_uniq_op _ _ _ HI _ _ _ _ _ _ _ H1 H2).
  - intros m m' st b dv' k H1 H2. sred. ucase; injs; try discriminate.
    exact (i_F_uniq _ _ _ HI _ _ _ _ _ _ H1 H2).
  - intros m st dv' off len b ap H. sred. ucase; injs; try discriminate.
    exact (i_D_buf _ _ _ HI _ _ _ _ _ _ _ H).
  - intros m st dv' off len b ap H. sred. ucase; injs; try discriminate.
    exact (i_D_applied _ _ _ HI _ _ _ _ _ _ _ H).
  - intros m st dv' snap H. sred. ucase; injs; try discriminate.
    exact (i_D_flush _ _ _ HI _ _ _ _ H).
  - intros m q' id' dv' k H. sred. ucase.
    + injection H as <- <- <- <-. destruct dv, r; cbn [start_op_kind]; try tauto; try exact Hr.
      split; [|exact Hr]. exists data; auto.
    + exact (i_G_op _ _ _ HI _ _ _ _ _ H).
Qed.

Lemma touch_of_status s w off len :
  fetch_status c s (stripes_of c off len) = SComplete ->
  (w = true -> track c = true -> stripes_written c s (stripes_of c off len) = Some true) ->
  touch_ok c s w off len.
Proof.
  intros H1 H2 i Hi. pose proof (stripes_of_in off len i Hi) as Hin. split.
  - eapply fetch_status_complete; eauto.
  - intros Hw Ht. eapply stripes_written_true; eauto.
Qed.

(** The invariant of a state in which serial [n] has been reserved. *)
Lemma inv_queue_write s n q id off data :
  Inv s -> Inv (queue_write c n q id off data s).
Proof.
  intros HI. unfold queue_write.
  destruct (ssf_spec q (stripes_of c off (length data)) s) as (cr & l & E & Hl & _).
  destruct (start_stripe_fetches c q (stripes_of c off (length data)) s) as [s1 r1]. cbn [fst] in E.
  assert (HI1 : Inv s1). { subst s1. apply inv_chreq, inv_mq; auto. }
  clear E. destruct r1.
  - destruct (track c).
    + destruct (ssw_spec (stripes_of c off (length data)) s1) as (l2 & E2 & Hl2).
      destruct (start_stripe_set_written c (stripes_of c off (length data)) s1) as [s2 r2]. cbn [fst] in E2.
      assert (HI2 : Inv s2). { subst s2. apply inv_mq; auto. }
      destruct r2; [apply inv_enqueue; auto; discriminate|apply inv_fail_req; auto|apply inv_panic; auto].
    + apply inv_enqueue; auto. discriminate.
  - apply inv_fail_req; auto.
  - apply inv_panic; auto.
Qed.

Lemma inv_add_req s q id r : Inv s -> Inv (add_req c q id r s).
Proof.
  intros HI0. unfold add_req. pose proof (inv_next _ HI0) as HI.
  set (n := next s) in *. set (s' := set_next (S n) s) in *.
  assert (Hn : n < next s') by (cbn; lia).
  assert (Ho : ops s' n = None).
  { destruct (ops s' n) eqn:E; auto. pose proof (i_N_ops _ _ _ HI0 n _ E). unfold n in *; lia. }
  clearbody n s'. destruct r as [off len|off data|].
  - unfold add_read. destruct (fetch_status c s' (stripes_of c off len)) eqn:E.
    + destruct ((stripe_first c off =? stripe_last c off len) && has_image c) eqn:Ei.
      * apply inv_issue; auto. apply andb_true_iff in Ei. tauto.
      * destruct (ssf_spec q (stripes_of c off len) s') as (cr & l & E1 & Hl & _).
        destruct (start_stripe_fetches c q (stripes_of c off len) s') as [s1 r1]. cbn [fst] in E1.
        assert (HI1 : Inv s1). { subst s1. apply inv_chreq, inv_mq; auto. }
        destruct r1; [apply inv_enqueue; auto; discriminate|apply inv_fail_req; auto|apply inv_panic; auto].
    + apply inv_issue; auto. apply touch_of_status; auto. discriminate.
    + apply inv_fail_req; auto.
    + apply inv_panic; auto.
  - unfold add_write. destruct (fetch_status c s' (stripes_of c off (length data))) eqn:E.
    + apply inv_queue_write; auto.
    + destruct (track c) eqn:Et.
      * destruct (stripes_written c s' (stripes_of c off (length data))) as [[|]|] eqn:Ew.
        -- apply inv_issue; auto. apply touch_of_status; auto.
        -- apply inv_queue_write; auto.
        -- apply inv_panic; auto.
      * apply inv_issue; auto. apply touch_of_status; auto. congruence.
    + apply inv_fail_req; auto.
    + apply inv_panic; auto.
  - apply inv_issue; auto.
Qed.

Lemma inv_take_finished s q : Inv s -> Inv (fst (take_finished q s)).
Proof. intros. apply inv_chfin; auto. Qed.

Lemma inv_process_front s q : Inv s ->
  (forall r, In r (chq s q) -> rq_serial r < next s /\ ops s (rq_serial r) = None) ->
  Inv (process_front c q s).
Proof.
  intros HI Hq. unfold process_front. destruct (chq s q) as [|r l] eqn:E; auto.
  destruct (Hq r) as [Hn Ho]; [left; auto|].
  assert (Hr : rq_req r <> RFlush). { eapply (i_G_queue _ _ _ HI q). rewrite E. left; auto. }
  assert (HI1 : Inv (set_chq (upd (chq s) q l) s)).
  { apply inv_chq; auto. intros r' Hr'. eapply (i_G_queue _ _ _ HI q). rewrite E. right; auto. }
  set (go := set_chreq _ _).
  assert (Hgo : fetch_status c s (req_stripes c (rq_req r)) = SComplete ->
    (track c && is_write (rq_req r) = true -> stripes_written c s (req_stripes c (rq_req r)) = Some true) ->
    Inv go).
  { intros H1 H2. apply inv_chreq, inv_issue; auto.
    unfold req_stripes in *. destruct (rq_req r) as [off len|off data|]; cbn [fst snd req_extent is_write] in *.
    - intros i Hi. apply (touch_of_status s false off len); auto. congruence.
    - intros i Hi. apply (touch_of_status s true off (length data)); auto. intros _ Ht. apply H2. rewrite Ht. reflexivity.
    - congruence. }
  destruct (fetch_status c s (req_stripes c (rq_req r))) eqn:Es; auto using inv_panic, inv_fail_req.
  destruct (track c && is_write (rq_req r)) eqn:Et.
  - destruct (stripes_written c s (req_stripes c (rq_req r))) as [[|]|]; auto using inv_panic.
  - apply Hgo; auto. congruence.
Qed.

End GuestInv.
