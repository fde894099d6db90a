(** C75: between a guest's driver and a vhost backend thread no wake-up is lost. *)
From Coq Require Import List NArith ZArith Bool Lia ZifyBool ZifyN.
From Verif Require Import KickModel KickSpec KickProofs.
Import ListNotations.
Local Open Scope N_scope.

Lemma few_next : forall limit n e r, few_at_once limit n (e :: r) ->
  n < limit -> next_n n e < limit /\ few_at_once limit (next_n n e) r.
Proof.
  intros limit n e r F L. destruct e; cbn in *; try (split; [lia|exact F]).
  destruct a; cbn in *; [split; [lia|exact F]|exact F|split; [lia|exact F]].
Qed.

Lemma inv_run : forall ei qsize, qsize <= 32768 -> forall es n s s',
  Inv ei qsize n s -> n < 65536 - qsize -> well_formed es ->
  few_at_once (65536 - qsize) n es ->
  krun ei qsize s es = Some s' -> exists n', Inv ei qsize n' s'.
Proof.
  intros ei qsize HQ. induction es as [|e r IH]; intros n s s' I L WF F R; cbn [krun] in R.
  - injection R as <-. eauto.
  - destruct (kstep ei qsize s e) as [s1|] eqn:ES; [|discriminate R].
    destruct (few_next _ _ _ _ F L) as [L1 F1].
    apply (IH (next_n n e) s1 s'); auto.
    + apply (inv_step ei qsize HQ n s e s1); auto.
      intros ->. apply WF. left. reflexivity.
    + intros C. apply WF. right. exact C.
Qed.

Section Claims.
Variable event_idx : bool.
Variable qsize : N.
Hypothesis queue_size : qsize <= 32768.
Variable es : list kevent.
Variable s : kstate.
Hypothesis no_bad_chain : well_formed es.
Hypothesis no_flood : few_at_once (65536 - qsize) 0 es.
Hypothesis reached : krun event_idx qsize kinit es = Some s.

Lemma reached_inv : exists n, Inv event_idx qsize n s.
Proof.
  apply (inv_run event_idx qsize queue_size es 0 kinit); auto.
  - apply inv_init; assumption.
  - lia.
Qed.

(** A sleeping backend that no kick will wake has taken and answered every request: no
    request waits in the ring or in the channel for a kick that never comes. *)
Theorem C75_no_lost_kick :
  backend_stuck s -> driver_told s ->
  k_next s = k_avail s /\ k_flight s = 0 /\ k_used s = k_avail s.
Proof.
  intros [PC KI] T. destruct reached_inv as [n (C & K & _)].
  unfold Cnt in C. unfold Kicks in K. rewrite PC in K. unfold driver_told in T.
  destruct event_idx.
  - destruct K as [[_ O] F]. unfold Owed in O. rewrite KI in O.
    assert (~ k_next s < k_avail s) by (intros L; destruct (O L) as [X|X]; [discriminate X|lia]).
    lia.
  - destruct K as (m & M1 & M2 & O). unfold Owed in O. rewrite KI in O.
    assert (~ m < k_avail s) by (intros L; destruct (O L) as [X|X]; [discriminate X|lia]).
    lia.
Qed.

(** A driver that waits while no interrupt is on its way, and the backend sleeps, has seen
    every answer. *)
Theorem C75_no_lost_interrupt :
  k_pc s = Asleep -> driver_stuck s -> k_seen s = k_used s.
Proof.
  intros PC [W IR]. destruct reached_inv as [n (C & _ & A & [_ I] & D & _)].
  unfold Announced in A. unfold Added in D. rewrite PC in A, D.
  unfold Cnt in C. destruct (I W IR) as [E|[(f & b & E)|[E1 E2]]].
  - symmetry. exact E.
  - rewrite PC in E. discriminate E.
  - destruct event_idx; [|congruence]. specialize (E2 eq_refl). lia.
Qed.

(** Both sides asleep: everything asked for has been answered and the answers taken. *)
Theorem C75_no_deadlock :
  backend_stuck s -> driver_told s -> driver_stuck s -> k_seen s = k_avail s.
Proof.
  intros B T D. destruct (C75_no_lost_kick B T) as (_ & _ & E).
  rewrite <- E. apply C75_no_lost_interrupt; [exact (proj1 B)|exact D].
Qed.

(** The backend never stops anywhere else than asleep: unless it sleeps and no kick is
    pending, it has a step to take. *)
Theorem C75_backend_moves :
  ~ backend_stuck s ->
  exists e s', List.In e [BWake; BEnable; BPop Later; BPolled; BSignal; BRaise; BReturn true] /\
    kstep event_idx qsize s e = Some s'.
Proof.
  intros NB. destruct reached_inv as [n (_ & K & _)]. unfold Kicks in K.
  unfold backend_stuck in NB. destruct (k_pc s) as [|f p] eqn:PC.
  - assert (KI : k_kick s = true) by (destruct (k_kick s); tauto).
    exists BWake. eexists. split; [cbn; tauto|]. unfold kstep. rewrite PC, KI. reflexivity.
  - destruct p.
    + destruct K as [-> _]. exists BEnable. eexists. split; [cbn; tauto|].
      unfold kstep. rewrite PC. reflexivity.
    + exists (BPop Later). unfold kstep. rewrite PC.
      destruct (same16 _ _); eexists; (split; [cbn; tauto|reflexivity]).
    + exists BPolled. eexists. split; [cbn; tauto|]. unfold kstep. rewrite PC. reflexivity.
    + exists BSignal. unfold kstep. rewrite PC.
      destruct (k_pend s); [destruct event_idx|]; eexists; (split; [cbn; tauto|reflexivity]).
    + exists BRaise. eexists. split; [cbn; tauto|]. unfold kstep. rewrite PC. reflexivity.
    + exists (BReturn true). unfold kstep. rewrite PC.
      destruct f; [|destruct (busy || _)]; eexists; (split; [cbn; tauto|reflexivity]).
Qed.
End Claims.

(** With EVENT_IDX the backend only sleeps when its channel has nothing in flight. *)
Theorem C75_sleeps_idle : forall qsize es s,
  qsize <= 32768 -> well_formed es -> few_at_once (65536 - qsize) 0 es ->
  krun true qsize kinit es = Some s -> k_pc s = Asleep -> k_flight s = 0.
Proof.
  intros qsize es s HQ WF F R PC.
  destruct (reached_inv true qsize HQ es s WF F R) as [n (_ & K & _)].
  unfold Kicks in K. rewrite PC in K. exact (proj2 K).
Qed.

(** A race the last loop of handle_event is for: the driver publishes a second request when
    the polling loop is over, sees the old avail_event and does not kick; the backend finds
    the request all the same.  In the end both sides wait and both requests are done. *)
Definition race : list kevent :=
  [GAdd; GKick; GEnable; GCheck; BWake;
   BPop Later; BPop Later; BComplete; BPolled; BSignal; BRaise; BReturn true;
   BPop Later; BPolled; BSignal; BReturn true;
   GIrq; GTake; GEnable; GCheck;
   GAdd; GKick;
   BEnable; BPop Later; BPop Later; BPolled; BSignal; BReturn true;
   BEnable; BPop Later; BComplete; BPolled; BSignal; BRaise; BReturn true;
   GIrq; GTake; GEnable; GCheck].

Example C75_nonvacuous : exists s,
  well_formed race /\ few_at_once (65536 - 8) 0 race /\ krun true 8 kinit race = Some s /\
  backend_stuck s /\ driver_told s /\ driver_stuck s /\ k_avail s = 2.
Proof.
  eexists. split; [unfold well_formed, race; cbn; intuition discriminate|].
  split; [cbn; tauto|].
  split; [vm_compute; reflexivity|].
  repeat split.
Qed.

(** A chain that cannot be parsed is answered without setting ios_pending_signal: the
    driver waits for ever for an answer that is in the used ring (see also
    C50_refuted_bad_chain). *)
Theorem C75_refuted_bad_chain : exists es s,
  few_at_once (65536 - 8) 0 es /\ krun true 8 kinit es = Some s /\
  backend_stuck s /\ driver_told s /\ driver_stuck s /\ k_used s = 1 /\ k_seen s = 0.
Proof.
  exists [GEnable; GCheck; GAdd; GKick; BWake;
          BPop BadChain; BPop Later; BPolled; BSignal; BReturn true;
          BPop Later; BPolled; BSignal; BReturn true;
          BEnable; BPop Later; BPolled; BSignal; BReturn true].
  eexists. split; [cbn; tauto|]. split; [vm_compute; reflexivity|]. repeat split.
Qed.

(** Why floods are excluded: 2^16 requests answered at once in one call of process_queue
    wrap the queue's count of answers to 0, and the interrupt is not sent. *)
Fixpoint rep (n : nat) (l r : list kevent) : list kevent :=
  match n with O => r | S n' => l ++ rep n' l r end.

Definition flood : list kevent :=
  [GAdd; GKick; BWake] ++
  rep (N.to_nat 65535) [BPop AtOnce; GTake; GAdd; GKick]
  ([GEnable; GCheck; BPop AtOnce; BPop Later; BPolled; BSignal; BReturn true;
    BPop Later; BPolled; BSignal; BReturn true;
    BEnable; BPop Later; BPolled; BSignal; BReturn true]).

(** After [k] requests of the flood. *)
Definition flooded (k : N) (b : bool) : kstate :=
  mk_kstate (k + 1) 0 k 0 false false (In false (PPop b)) k 0 k b (k + 1) k Off.

Lemma flood_step : forall k b r, k < 65535 ->
  krun true 8 (flooded k b) ([BPop AtOnce; GTake; GAdd; GKick] ++ r) = krun true 8 (flooded (k + 1) true) r.
Proof.
  intros k b r H. unfold flooded. cbn [app krun kstep k_pc].
  unfold same16, W16. cbn [k_avail k_next].
  rewrite N.mod_small by lia. rewrite (N.mod_small k) by lia.
  replace (k + 1 =? k) with false by lia.
  unfold add_used, set_next_flight, set_pc.
  cbn [k_avail k_avail_event k_used k_used_event k_kick k_irq k_pc k_next k_flight k_added k_pend k_kicked k_seen k_cb orb].
  unfold W16. rewrite N.mod_small by lia.
  rewrite (N.mod_small k) by lia. replace (k + 1 =? k) with false by lia.
  unfold may_add. cbn [k_avail k_seen k_kicked]. unfold W16.
  replace ((k + 1 - (k + 1) <? 8) && (k + 1 - (k + 1) <? 65536 - 1)) with true by lia.
  cbn [k_avail k_avail_event k_used k_used_event k_kick k_irq k_pc k_next k_flight k_added k_pend k_kicked k_seen k_cb].
  unfold driver_kicks. cbn [k_avail k_avail_event k_kicked]. unfold sub16, W16.
  replace ((((k + 1 + 1) mod 65536 + 65536 - 0 mod 65536) mod 65536 mod 65536 + 65536 - 1 mod 65536) mod 65536
           <? ((k + 1 + 1) mod 65536 + 65536 - (k + 1) mod 65536) mod 65536) with false by lia.
  reflexivity.
Qed.

Lemma flood_run : forall n b r, N.of_nat n <= 65535 -> 0 < N.of_nat n ->
  krun true 8 (flooded 0 b) (rep n [BPop AtOnce; GTake; GAdd; GKick] r) = krun true 8 (flooded (N.of_nat n) true) r.
Proof.
  intros n b r H P.
  assert (G : forall m k b, k + N.of_nat m <= 65535 ->
    krun true 8 (flooded k b) (rep m [BPop AtOnce; GTake; GAdd; GKick] r) =
    krun true 8 (flooded (k + N.of_nat m) (b || (0 <? N.of_nat m))) r).
  { clear. intros m. induction m as [|m IH]; intros k b H; cbn [rep].
    - cbn [N.of_nat]. rewrite N.add_0_r, orb_false_r. reflexivity.
    - rewrite flood_step by lia. rewrite IH by lia. cbn [orb].
      replace (k + 1 + N.of_nat m) with (k + N.of_nat (S m)) by lia.
      replace (0 <? N.of_nat (S m)) with true by lia. now rewrite orb_true_r. }
  rewrite G by lia. replace (0 <? N.of_nat n) with true by lia. now rewrite orb_true_r.
Qed.

Theorem C75_refuted_flood : exists s,
  krun true 8 kinit flood = Some s /\
  backend_stuck s /\ driver_told s /\ driver_stuck s /\ k_used s = 65536 /\ k_seen s = 65535.
Proof.
  assert (E : forall l, krun true 8 kinit ([GAdd; GKick; BWake] ++ l) = krun true 8 (flooded 0 false) l) by reflexivity.
  unfold flood. rewrite E.
  rewrite flood_run by (rewrite N2Nat.id; lia). rewrite N2Nat.id.
  eexists. split; [vm_compute; reflexivity|]. repeat split.
Qed.

Print Assumptions C75_no_lost_kick.
Print Assumptions C75_no_lost_interrupt.
Print Assumptions C75_no_deadlock.
Print Assumptions C75_backend_moves.
Print Assumptions C75_sleeps_idle.
Print Assumptions C75_refuted_bad_chain.
Print Assumptions C75_refuted_flood.
