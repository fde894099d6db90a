(** C39: ublk requests are completed exactly once; and what a failed submit does to the
    tracker (C40). *)
From Coq Require Import List NArith ZArith Arith Bool Lia ZifyBool ZifyNat ZifyN.
From Verif Require Import Base BaseFacts TrackerModel TrackerProps UblkModel UblkSpec UblkProofs.
Import ListNotations.
Local Open Scope N_scope.

(** The handler never panics, whatever the driver's requests and the channel's answers. *)
Theorem C39_no_panic : forall max n es,
  along max (driver_ok max n) (hinit max n) es -> exists s, hrun max (hinit max n) es = Ok s.
Proof.
  intros max n es A. destruct (hrun_ok max n es _ (hinit_wf max n) (hinit_one max n) A) as (s & E & _). eauto.
Qed.

(** Every tag handed over is completed exactly once or still held, and never held twice,
    whatever the channel reports (failures, unknown ids, duplicates) and whether or
    not submits fail. *)
Theorem C39_exactly_once : forall max n es s,
  along max (driver_ok max n) (hinit max n) es -> hrun max (hinit max n) es = Ok s ->
  forall t, handed_n t es = (completed_n t s + owned_n t s)%nat /\ (owned_n t s <= 1)%nat.
Proof.
  intros max n es s A E t.
  destruct (hrun_ok max n es _ (hinit_wf max n) (hinit_one max n) A) as (s' & E' & W & U & C).
  rewrite E in E'. injection E' as <-. split; [|apply U]. specialize (C t).
  assert (Z : (completed_n t (hinit max n) + owned_n t (hinit max n) = 0)%nat).
  { unfold completed_n, owned_n, inflight_n, hinit. cbn [h_done h_pending h_inflight for_tag filter length pending_n].
    destruct (nth_error (repeat None n) t) as [[r|]|] eqn:En; try reflexivity.
    apply nth_error_In, repeat_spec in En. discriminate. }
  lia.
Qed.

Lemma along_app : forall max P es1 es2 s s1, along max P s (es1 ++ es2) -> hrun max s es1 = Ok s1 ->
  along max P s es1 /\ along max P s1 es2.
Proof.
  induction es1 as [|e es1 IH]; intros es2 s s1 A E; cbn [app along hrun] in *.
  - injection E as <-. auto.
  - destruct A as [A1 A2]. destruct (hstep max s e) as [s0| |] eqn:E0; try discriminate. cbn [bindr] in E.
    destruct (IH _ _ _ (A2 _ eq_refl) E) as [B1 B2]. split; [|exact B2]. split; [exact A1|].
    intros s2 E2. injection E2 as <-. exact B1.
Qed.

Lemma hrun_app : forall max es1 es2 s s', hrun max s (es1 ++ es2) = Ok s' ->
  exists s1, hrun max s es1 = Ok s1 /\ hrun max s1 es2 = Ok s'.
Proof.
  induction es1 as [|e es1 IH]; intros es2 s s' E; cbn [app hrun] in *; [eauto|].
  destruct (hstep max s e) as [s0| |]; try discriminate. cbn [bindr] in *. eauto.
Qed.

Lemma reach_chan : forall max n es s, along max (driver_ok max n) (hinit max n) es ->
  along max channel_ok (hinit max n) es -> hrun max (hinit max n) es = Ok s ->
  wf max n s /\ one_each s /\ chan_inv s.
Proof.
  intros max n es.
  assert (G : forall s0 s, wf max n s0 -> one_each s0 -> chan_inv s0 ->
    along max (driver_ok max n) s0 es -> along max channel_ok s0 es -> hrun max s0 es = Ok s ->
    wf max n s /\ one_each s /\ chan_inv s).
  { induction es as [|e es IH]; intros s0 s W U C A B E; cbn [hrun along] in *; [injection E as <-; auto|].
    destruct A as [A1 A2]. destruct B as [B1 B2].
    destruct (hstep_ok max n s0 e W U A1) as (s1 & E1 & W1 & U1 & _).
    destruct (hstep_chan max n s0 e s1 W U A1 B1 C E1) as [C1 _].
    rewrite E1 in E. cbn [bindr] in E. apply (IH s1 s); auto. }
  intros s A B E. apply (G (hinit max n) s); auto using hinit_wf, hinit_one.
  intros t. cbn. unfold inflight_n, hinit. cbn [h_inflight].
  destruct (nth_error (repeat None n) t) as [[r|]|] eqn:En; try reflexivity.
  apply nth_error_In, repeat_spec in En. discriminate.
Qed.

(** If no submit fails and the channel's busy flag is right, the handler returns to the
    driver only when everything handed over so far has been completed. *)
Theorem C39_drained : forall max n es busy ok ps s,
  along max (driver_ok max n) (hinit max n) (es ++ [EIter busy ok ps]) ->
  along max channel_ok (hinit max n) (es ++ [EIter busy ok ps]) ->
  hrun max (hinit max n) (es ++ [EIter busy ok ps]) = Ok s -> h_draining s = false ->
  forall t, handed_n t (es ++ [EIter busy ok ps]) = completed_n t s.
Proof.
  intros max n es busy ok ps s A B E Hd t.
  destruct (C39_exactly_once _ _ _ _ A E t) as [-> _].
  destruct (hrun_app _ _ _ _ _ E) as (s1 & E1 & E2).
  destruct (along_app _ _ _ _ _ _ A E1) as [A1 A2]. destruct (along_app _ _ _ _ _ _ B E1) as [B1 B2].
  destruct (reach_chan _ _ _ _ A1 B1 E1) as (W & U & C).
  cbn [along] in A2, B2. destruct A2 as [A2 _]. destruct B2 as [B2 _].
  cbn [hrun] in E2. destruct (hstep max s1 (EIter busy ok ps)) as [s2| |] eqn:Es; try discriminate.
  cbn [bindr] in E2. injection E2 as <-.
  destruct (hstep_chan _ _ _ _ _ W U A2 B2 C Es) as [_ H]. rewrite (H Hd). lia.
Qed.

(** A request that fits the buffers is held with its operation, sectors and data; a
    larger one is refused at once, without an operation on the device. *)
Theorem C39_accepted : forall max n es s tag d fl st nr last s',
  along max (driver_ok max n) (hinit max n) (es ++ [EHandle false tag d fl st nr last]) ->
  hrun max (hinit max n) es = Ok s -> hstep max s (EHandle false tag d fl st nr last) = Ok s' ->
  h_ops s' = h_ops s /\
  (nr * 512 <= max ->
     waiting (mk_ureq (op_from_raw (N.land fl 255)) st nr tag (nr * 512)) d s' /\ h_done s' = h_done s) /\
  (max < nr * 512 -> h_pending s' = h_pending s /\ h_inflight s' = h_inflight s /\
     h_done s' = h_done s ++ [(tag, UInval, d)]).
Proof.
  intros max n es s tag d fl st nr last s' A E Es.
  destruct (along_app _ _ _ _ _ _ A E) as [A1 A2]. cbn [along driver_ok] in A2. destruct A2 as [[_ A2] _].
  destruct (A2 eq_refl) as (Ht & _ & _).
  destruct (hrun_ok max n es _ (hinit_wf max n) (hinit_one max n) A1) as (s0 & E0 & W & _). rewrite E in E0. injection E0 as <-.
  destruct W. cbn [hstep] in Es. unfold handle in Es. destruct (N.ltb_spec max (nr * 512)).
  - unfold complete in Es. cbn [h_bufs] in Es. rewrite nth_error_set_nth_eq in Es by lia. injection Es as <-.
    cbn [h_ops h_pending h_inflight h_done]. split; [reflexivity|]. split; [lia|]. auto.
  - injection Es as <-. cbn [h_ops h_pending h_inflight h_done]. split; [reflexivity|]. split; [|lia].
    intros _. split; [|reflexivity]. split; cbn [h_pending h_bufs q_tag].
    + apply in_or_app. right. left. reflexivity.
    + apply nth_error_set_nth_eq. lia.
Qed.

(** A held request is sent to the channel exactly once, with its sectors and its data,
    and gets the answer the channel's report calls for: the number of bytes (and the
    data read) on success, an error otherwise. *)
Theorem C39_answer : forall max n es0 s r d es s', max < 2 ^ 31 ->
  along max (driver_ok max n) (hinit max n) (es0 ++ es) ->
  hrun max (hinit max n) es0 = Ok s -> waiting r d s -> hrun max s es = Ok s' ->
  (for_tag (q_tag r) (h_done s') = for_tag (q_tag r) (h_done s) /\
     ((waiting r d s' /\ ops_for (q_tag r) (h_ops s') = ops_for (q_tag r) (h_ops s)) \/
      (issued r d s' /\ ops_for (q_tag r) (h_ops s') = ops_for (q_tag r) (h_ops s) ++ forwarded r d))) \/
  (exists es1 e es2 s1 s2 rs b, es = es1 ++ e :: es2 /\
     hrun max s es1 = Ok s1 /\ hstep max s1 e = Ok s2 /\ hrun max s2 es2 = Ok s' /\
     for_tag (q_tag r) (h_done s2) = for_tag (q_tag r) (h_done s) ++ [(q_tag r, rs, b)] /\
     ops_for (q_tag r) (h_ops s2) = ops_for (q_tag r) (h_ops s) ++ forwarded r d /\
     answers e r d rs b).
Proof.
  intros max n es0 s r d es s' Hm A E0 T E.
  destruct (along_app _ _ _ _ _ _ A E0) as [A1 A2].
  destruct (hrun_ok max n es0 _ (hinit_wf max n) (hinit_one max n) A1) as (s0 & E0' & W & U & _).
  rewrite E0 in E0'. injection E0' as <-. clear A A1 E0.
  set (t := q_tag r). set (base := ops_for t (h_ops s)). set (dn := for_tag t (h_done s)).
  assert (St : (waiting r d s /\ ops_for t (h_ops s) = base) \/ (issued r d s /\ ops_for t (h_ops s) = base ++ forwarded r d))
    by (left; auto).
  assert (Dn : for_tag t (h_done s) = dn) by reflexivity.
  clearbody base dn. clear T. revert s W U A2 E St Dn.
  induction es as [|e es IH]; intros s W U A2 E St Dn.
  - cbn in E. injection E as <-. left. split; [exact Dn|]. destruct St as [[? ?]|[? ?]]; auto.
  - cbn [along] in A2. destruct A2 as [B1 B2]. cbn [hrun] in E.
    destruct (hstep_ok max n s e W U B1) as (s1 & Es & W1 & U1 & _). rewrite Es in E. cbn [bindr] in E.
    assert (T : waiting r d s \/ issued r d s) by (destruct St as [[? ?]|[? ?]]; auto).
    destruct (answer_step max n s e s1 r d Hm W U B1 Es T) as (nops & O1 & [[D1 S1]|(rs & b & D1 & An & Ow & No)]).
    + fold t in O1, D1.
      assert (St1 : (waiting r d s1 /\ ops_for t (h_ops s1) = base) \/ (issued r d s1 /\ ops_for t (h_ops s1) = base ++ forwarded r d)).
      { assert (NI : waiting r d s -> issued r d s -> False).
        { intros [w _] [i _]. specialize (U (q_tag r)). unfold owned_n, inflight_n in U. rewrite i in U.
          apply in_pending_count in w. lia. }
        destruct S1 as [(w & w1 & ->)|[(w & i1 & ->)|(i & i1 & ->)]]; destruct St as [[x Eo]|[x Eo]];
          try (exfalso; eauto; fail); rewrite O1, Eo, ?app_nil_r; auto. }
      destruct (IH s1 W1 U1 (B2 _ Es) E St1 (eq_trans D1 Dn)) as [L|(es1 & e' & es2 & s2 & s3 & rs & b & -> & F1 & F2)].
      * left. exact L.
      * right. exists (e :: es1), e', es2, s2, s3, rs, b. split; [reflexivity|]. split; [cbn [hrun]; rewrite Es; exact F1|exact F2].
    + right. exists [], e, es, s, s1, rs, b. split; [reflexivity|]. split; [reflexivity|]. split; [exact Es|]. split; [exact E|].
      fold t in D1, O1. split; [rewrite D1, Dn; reflexivity|]. split; [|exact An].
      rewrite O1, No. destruct St as [[w Eo]|[i Eo]]; rewrite Eo.
      * destruct (in_dec Nat.eq_dec (q_tag r) (map q_tag (h_pending s))) as [|C]; [reflexivity|].
        exfalso. apply C. apply in_map. exact (proj1 w).
      * destruct (in_dec Nat.eq_dec (q_tag r) (map q_tag (h_pending s))) as [Hin|]; [|apply app_nil_r].
        exfalso. apply in_map_iff in Hin as (x & Ex & Hin). apply in_pending_count in Hin. rewrite Ex in Hin.
        specialize (U (q_tag r)). unfold owned_n, inflight_n in U. rewrite (proj1 i) in U. lia.
Qed.

Lemma along_cons : forall max (P : hstate -> hevent -> Prop) es s s1 e, P s e -> hstep max s e = Ok s1 ->
  along max P s1 es -> along max P s (e :: es).
Proof. intros max P es s s1 e H1 H2 H3. split; [exact H1|]. intros s2 H. rewrite H2 in H. injection H as <-. exact H3. Qed.

(** A run meeting all hypotheses: a read and a write in one batch, answered out of
    order over two iterations. *)
Definition ex_es : list hevent :=
  [EHandle false 0 (repeat 1 512) 0 5 1 false; EHandle false 1 (repeat 2 512) 1 9 1 true;
   EIter false true [(1%nat, true, [])]; EIter true true [(0%nat, true, repeat 7 512)]; EIter false true []].

Example C39_nonvacuous : along 512 (driver_ok 512 2) (hinit 512 2) ex_es /\
  along 512 channel_ok (hinit 512 2) ex_es /\
  exists s, hrun 512 (hinit 512 2) ex_es = Ok s /\ h_draining s = false /\
    h_ops s = [ChRead 5 1 0; ChWrite 9 1 1 (repeat 2 512)] /\
    h_done s = [(1%nat, UResult 512, repeat 2 512); (0%nat, UResult 512, repeat 7 512)].
Proof.
  split; [|split].
  - unfold ex_es.
    eapply along_cons; [split; [reflexivity|]; intros _; split; [lia|split; reflexivity]|vm_compute; reflexivity|].
    eapply along_cons; [split; [reflexivity|]; intros _; split; [lia|split; reflexivity]|vm_compute; reflexivity|].
    eapply along_cons; [split; [reflexivity|]; repeat constructor; cbn; lia|vm_compute; reflexivity|].
    eapply along_cons; [split; [reflexivity|]; repeat constructor; vm_compute; discriminate|vm_compute; reflexivity|].
    eapply along_cons; [split; [reflexivity|]; repeat constructor|vm_compute; reflexivity|]. exact Logic.I.
  - unfold ex_es.
    eapply along_cons; [exact Logic.I|vm_compute; reflexivity|].
    eapply along_cons; [exact Logic.I|vm_compute; reflexivity|].
    eapply along_cons; [split; [reflexivity|intros _; reflexivity]|vm_compute; reflexivity|].
    eapply along_cons; [split; [reflexivity|discriminate]|vm_compute; reflexivity|].
    eapply along_cons; [split; [reflexivity|intros _; reflexivity]|vm_compute; reflexivity|]. exact Logic.I.
  - eexists. split; [vm_compute; reflexivity|]. vm_compute. auto.
Qed.

(** ** Counterexamples *)

(** An oversized request at the end of a batch makes the handler return without
    starting the requests of the same batch: they wait until the driver happens to
    deliver another request. *)
Theorem C39_refuted_stranded : exists es s,
  along 512 (driver_ok 512 2) (hinit 512 2) es /\
  hrun 512 (hinit 512 2) es = Ok s /\ h_draining s = false /\
  handed_n 0 es = 1%nat /\ completed_n 0 s = 0%nat /\ h_ops s = [].
Proof.
  exists [EHandle false 0 (repeat 1 512) 0 5 1 false; EHandle false 1 (repeat 2 512) 0 9 2 true].
  eexists. split; [|split; [vm_compute; reflexivity|vm_compute; auto]].
  eapply along_cons; [split; [reflexivity|]; intros _; split; [lia|split; reflexivity]|vm_compute; reflexivity|].
  eapply along_cons; [split; [reflexivity|]; intros _; split; [lia|split; reflexivity]|vm_compute; reflexivity|]. exact Logic.I.
Qed.

(** After a failed submit the operations stay with the channel.  When the driver
    reuses the tag, the late answer to the old operation is taken for the answer to
    the new request: here a write is acknowledged on the strength of the old read's
    completion, with one operation of the tag still outstanding. *)
Theorem C39_refuted_stale_answer : exists es s,
  along 512 (driver_ok 512 1) (hinit 512 1) es /\
  hrun 512 (hinit 512 1) es = Ok s /\
  h_ops s = [ChRead 5 1 0; ChWrite 9 1 0 (repeat 2 512)] /\
  (exists b1 b2, h_done s = [(0%nat, UInval, b1); (0%nat, UResult 512, b2)]) /\ h_chan s = [0%nat].
Proof.
  exists [EHandle false 0 (repeat 1 512) 0 5 1 true; EIter false false [];
          EHandle false 0 (repeat 2 512) 1 9 1 true; EIter true true [(0%nat, true, repeat 7 512)]].
  eexists. split; [|split; [vm_compute; reflexivity|]].
  - eapply along_cons; [split; [reflexivity|]; intros _; split; [lia|split; reflexivity]|vm_compute; reflexivity|].
    eapply along_cons; [split; [reflexivity|]; repeat constructor|vm_compute; reflexivity|].
    eapply along_cons; [split; [reflexivity|]; intros _; split; [lia|split; reflexivity]|vm_compute; reflexivity|].
    eapply along_cons; [split; [reflexivity|]; repeat constructor; vm_compute; discriminate|vm_compute; reflexivity|]. exact Logic.I.
  - split; [vm_compute; reflexivity|]. split; [vm_compute; eauto|vm_compute; reflexivity].
Qed.

(** After a failed submit the tracker still lists the failed request. *)
Theorem C40_refuted_failed_submit : exists es s l,
  along 512 (driver_ok 512 1) (hinit 512 1) es /\
  hrun 512 (hinit 512 1) es = Ok s /\ completed_n 0 s = handed_n 0 es /\ h_draining s = false /\
  snapshot (h_tr s) = Ok l /\ map shown l = [ARead 5 1].
Proof.
  exists [EHandle false 0 (repeat 1 512) 0 5 1 true; EIter false false []].
  eexists. eexists. split; [|split; [vm_compute; reflexivity|]].
  - eapply along_cons; [split; [reflexivity|]; intros _; split; [lia|split; reflexivity]|vm_compute; reflexivity|].
    eapply along_cons; [split; [reflexivity|]; repeat constructor|vm_compute; reflexivity|]. exact Logic.I.
  - split; [vm_compute; reflexivity|]. split; [vm_compute; reflexivity|]. split; [vm_compute; reflexivity|]. vm_compute. reflexivity.
Qed.

Print Assumptions C39_no_panic.
Print Assumptions C39_exactly_once.
Print Assumptions C39_drained.
Print Assumptions C39_accepted.
Print Assumptions C39_answer.
Print Assumptions C39_refuted_stranded.
Print Assumptions C39_refuted_stale_answer.
Print Assumptions C40_refuted_failed_submit.
