(** C66: a backend serves clients only behind a background worker that has started,
    and does not return before the worker has ended. *)
From Coq Require Import List Bool Arith Lia.
From Verif Require Import LoopModel.
Import ListNotations.

Definition running (w : wpc) : Prop := w = WBuilding \/ w = WRunning.

(** The invariant. *)
Definition phase (c : cfg) (s : st) : Prop :=
  match main s with
  | MBuild | MSpawn => worker s = WNone /\ status s = None /\ served s = 0 /\ sent s = []
  | MWait => has_metadata c = true /\ worker s <> WNone /\ served s = 0 /\ sent s = [] /\
             (worker s = WRunning -> status s = Some true) /\
             (worker s = WBuilding -> status s = None)
  | MRpc => served s = 0 /\ sent s = [] /\ worker s <> WBuilding /\
            (has_metadata c = true -> status s = Some true /\ worker s <> WNone) /\
            (has_metadata c = false -> worker s = WNone)
  | MServing => served s <> 0 /\ ~ In RShutdown (sent s) /\ worker s <> WBuilding /\
            (has_metadata c = true -> status s = Some true /\ worker s <> WNone) /\
            (has_metadata c = false -> worker s = WNone)
  | MStop r => ~ In RShutdown (sent s) /\ worker s <> WBuilding /\
            (has_metadata c = false -> worker s = WNone) /\
            (has_metadata c = true -> served s <> 0 -> status s = Some true) /\
            (has_metadata c = true -> r = ROk -> status s = Some true) /\
            (worker s = WNone -> has_metadata c = true -> served s = 0) /\
            (r = ROk -> served s <> 0 /\ forever c = false)
  | MJoin r => worker s <> WBuilding /\
            (has_metadata c = false -> worker s = WNone) /\
            (worker s = WRunning -> In RShutdown (box s)) /\
            (has_metadata c = true -> served s <> 0 -> status s = Some true) /\
            (has_metadata c = true -> r = ROk -> status s = Some true) /\
            (r = ROk -> served s <> 0 /\ forever c = false)
  | MDone r => ~ running (worker s) /\
            (has_metadata c = true -> served s <> 0 -> status s = Some true) /\
            (has_metadata c = true -> r = ROk -> status s = Some true) /\
            (r = ROk -> served s <> 0 /\ forever c = false)
  end.

Definition flow (s : st) : Prop :=
  sent s = handled s ++ box s /\
  (worker s = WNone -> sent s = []) /\
  (worker s = WBuilding -> handled s = [] /\ status s = None) /\
  (forall p, worker s = WGone p -> box s = []) /\
  (worker s = WGone false -> status s = Some true -> In RShutdown (handled s)) /\
  (worker s = WRunning -> ~ In RShutdown (handled s) /\ status s = Some true) /\
  (worker s = WGone false -> status s <> None) /\
  (status s = Some false -> worker s = WGone false).

Lemma existsb_shut : forall l, existsb is_shutdown l = true <-> In RShutdown l.
Proof.
  intros l. rewrite existsb_exists. split.
  - intros [x [Hi Hx]]. destruct x; try discriminate. exact Hi.
  - intros H. exists RShutdown. auto.
Qed.

Lemma existsb_noshut : forall l, existsb is_shutdown l = false <-> ~ In RShutdown l.
Proof.
  intros l. rewrite <- existsb_shut. destruct (existsb is_shutdown l); split; congruence.
Qed.

Definition inv (c : cfg) (s : st) : Prop := phase c s /\ flow s.

Lemma inv_init : forall c, inv c init.
Proof.
  intros c. split; [cbn; auto|]. unfold flow; cbn. repeat split; intros; auto; discriminate.
Qed.

Ltac fin := intuition (try congruence; try discriminate).

Lemma inv_main : forall c s o s', inv c s -> step_main c s o = Some s' -> inv c s'.
Proof.
  intros c s o s' [P (F1 & F2 & F3 & F4 & F5 & F6 & F7 & F8)] E. unfold phase in P. unfold step_main in E.
  destruct (main s) eqn:Em.
  - destruct o; injection E as <-; (split; [|unfold flow; cbn; fin]); unfold phase; cbn; fin;
      unfold running in *; fin.
  - destruct P as (W & St & Sv & Se). rewrite Se in *. destruct (has_metadata c) eqn:Hm.
    + destruct o; injection E as <-; split.
      all: try (unfold phase; cbn; rewrite ?Hm, ?Se; fin; fail).
      all: unfold flow; cbn; rewrite ?Se; fin.
      all: symmetry in F1; apply app_eq_nil in F1; tauto.
    + injection E as <-. split; [unfold phase; cbn; rewrite Hm, ?Se; fin|unfold flow; cbn; rewrite ?Se; fin].
  - destruct P as (Hm & W & Sv & Se & P1 & P2). destruct (status s) as [[|]|] eqn:Es.
    + injection E as <-. split; [unfold phase; cbn; rewrite Hm, ?Es; fin|unfold flow; cbn; rewrite ?Es; fin].
    + injection E as <-. split; [unfold phase; cbn; rewrite Hm, ?Es, ?Se; fin|unfold flow; cbn; rewrite ?Es; fin].
    + destruct (worker s) eqn:Ew; try discriminate.
      injection E as <-. split; [unfold phase; cbn; rewrite Hm, ?Es, ?Se, ?Ew; fin|unfold flow; cbn; rewrite ?Es, ?Ew; fin].
  - destruct P as (Sv & Se & W & P1 & P2).
    destruct o; injection E as <-; (split; [|unfold flow; cbn; fin]); unfold phase; cbn; rewrite ?Se; fin.
  - destruct P as (Sv & Se & W & P1 & P2).
    destruct o; [destruct (forever c) eqn:Hf|..]; injection E as <-; (split; [|unfold flow; cbn; fin]);
      unfold phase; cbn; fin.
  - destruct P as (Se & W & P1 & P2 & P3 & P4 & P5). injection E as <-.
    destruct (has_metadata c) eqn:Hm.
    + unfold send. destruct (worker s) eqn:Ew.
      * split; [unfold phase; cbn; rewrite Hm, ?Ew; fin|unfold flow; cbn; rewrite ?Ew; fin].
      * congruence.
      * split; [unfold phase; cbn; rewrite Hm, ?Ew, ?in_app_iff; cbn; fin|].
        unfold flow; cbn; rewrite ?Ew. rewrite F1, app_assoc. fin.
      * split; [unfold phase; cbn; rewrite Hm, ?Ew; fin|unfold flow; cbn; rewrite ?Ew; fin].
    + split; [unfold phase; cbn; rewrite Hm; fin|unfold flow; cbn; fin].
  - destruct P as (W & P1 & P2 & P3 & P4 & P5). destruct (worker s) eqn:Ew; try discriminate;
      injection E as <-; (split; [|unfold flow; cbn; rewrite ?Ew; fin]).
    all: unfold phase; cbn; rewrite ?Ew; unfold running; fin.
  - discriminate.
Qed.

Lemma inv_worker : forall c s o b s', inv c s -> step_worker s o b = Some s' -> inv c s'.
Proof.
  intros c s o b s' [P (F1 & F2 & F3 & F4 & F5 & F6 & F7 & F8)] E. unfold step_worker in E.
  destruct (worker s) eqn:Ew; try discriminate.
  - destruct (F3 eq_refl) as [H0 Hs].
    assert (Hm : main s = MWait).
    { unfold phase in P. destruct (main s); auto; exfalso; unfold running in P; rewrite Ew in P; fin. }
    unfold phase in P. rewrite Hm in P. destruct P as (Hc & W & Sv & Se & P1 & P2).
    rewrite Se in F1. symmetry in F1. pose proof (app_eq_nil _ _ F1) as [Eh Eb].
    destruct o; injection E as <-;
      (split; [unfold phase; cbn; rewrite Hm; fin|unfold flow; cbn; rewrite ?Se, ?Eh, ?Eb; fin]).
  - destruct (negb b && _) eqn:Eb; [discriminate|]. injection E as <-. destruct (F6 eq_refl) as [Nh Hs].
    assert (Fl : forall w, w <> WNone -> w <> WBuilding ->
               (w = WRunning -> ~ In RShutdown (box s)) -> (w = WGone false -> In RShutdown (box s)) ->
               flow {| main := main s; worker := w; status := status s; box := []; sent := sent s;
                       handled := handled s ++ box s; refused := refused s; served := served s |}).
    { intros w N1 N2 R1 R2. unfold flow; cbn. rewrite app_nil_r, !in_app_iff, Hs. fin. }
    assert (Ph : forall w, w <> WNone -> w <> WBuilding ->
               (w = WRunning -> ~ In RShutdown (box s)) ->
               phase c {| main := main s; worker := w; status := status s; box := []; sent := sent s;
                       handled := handled s ++ box s; refused := refused s; served := served s |}).
    { intros w N1 N2 R1. unfold phase in *; cbn. rewrite ?Ew in P. destruct (main s); cbn in *; fin.
      unfold running in *. fin. }
    assert (D : forall w, w <> WNone -> w <> WBuilding -> (w = WRunning -> ~ In RShutdown (box s)) ->
               (w = WGone false -> In RShutdown (box s)) -> inv c
               {| main := main s; worker := w; status := status s; box := []; sent := sent s;
                       handled := handled s ++ box s; refused := refused s; served := served s |}).
    { intros. split; auto. }
    apply D; destruct o; try discriminate;
      destruct (existsb is_shutdown (box s)) eqn:Ex; try discriminate; intros; auto;
      first [now apply existsb_shut | now apply existsb_noshut].
Qed.

Lemma inv_guest : forall c s r s', inv c s -> step c s (EGuest r) = Some s' -> inv c s'.
Proof.
  intros c s r s' [P (F1 & F2 & F3 & F4 & F5 & F6 & F7 & F8)] E. cbn in E. unfold phase in P.
  destruct (main s) eqn:Em; try discriminate. destruct (is_shutdown r) eqn:Er; [discriminate|].
  destruct (has_metadata c) eqn:Hm; [|discriminate]. injection E as <-.
  destruct P as (Sv & Se & W & P1 & P2). unfold send. destruct (worker s) eqn:Ew.
  - split; [unfold phase; cbn; rewrite Em, ?Hm, ?Ew; fin|unfold flow; cbn; rewrite ?Ew; fin].
  - congruence.
  - assert (Nr : RShutdown <> r) by (destruct r; discriminate).
    split; [unfold phase; cbn; rewrite ?Em, ?Hm, ?Ew, in_app_iff; cbn; fin|].
    unfold flow; cbn; rewrite ?Ew, F1, app_assoc. fin.
  - split; [unfold phase; cbn; rewrite ?Em, ?Hm, ?Ew; fin|unfold flow; cbn; rewrite ?Ew; fin].
Qed.

Lemma reach_inv : forall c s, reach c s -> inv c s.
Proof.
  induction 1 as [|s e s' R IH E]; [apply inv_init|]. destruct e.
  - eapply inv_main; eauto.
  - eapply inv_worker; eauto.
  - eapply inv_guest; eauto.
Qed.

(** A client is served — serve has been called at all — only after the background
    worker, if the device needs one, reported that it started. *)
Theorem C66_serves_behind_a_started_worker : forall c s, reach c s ->
  has_metadata c = true -> served s <> 0 -> status s = Some true.
Proof.
  intros c s R Hm Sv. apply reach_inv in R as [P F]. unfold phase in P.
  destruct (main s); fin.
Qed.

(** A worker that fails to start, by an error or a panic, makes the whole call fail,
    and nothing is ever served; a vhost backend returns only with an error. *)
Theorem C66_failed_start_reported : forall c s r, reach c s -> main s = MDone r ->
  has_metadata c = true -> status s <> Some true -> served s = 0 /\ r <> ROk.
Proof.
  intros c s r R E Hm St. apply reach_inv in R as [P F]. unfold phase in P. rewrite E in P.
  destruct P as (_ & P1 & P2 & _). split; [|fin].
  destruct (served s); auto. exfalso. apply St, P1; auto.
Qed.

Theorem C66_success_means_served : forall c s, reach c s -> main s = MDone ROk ->
  served s <> 0 /\ forever c = false.
Proof.
  intros c s R E. apply reach_inv in R as [P F]. unfold phase in P. rewrite E in P. tauto.
Qed.

(** When the call has returned, in whatever way, no worker thread is left. *)
Theorem C66_worker_joined : forall c s r, reach c s -> main s = MDone r ->
  worker s <> WBuilding /\ worker s <> WRunning.
Proof.
  intros c s r R E. apply reach_inv in R as [P F]. unfold phase in P. rewrite E in P.
  unfold running in P. fin.
Qed.

(** Shutting down loses no request: when the call has returned and the worker did not
    panic, it has taken every request the channel accepted, in order. *)
Theorem C66_requests_drained : forall c s r, reach c s -> main s = MDone r ->
  worker s <> WGone true -> handled s = sent s.
Proof.
  intros c s r R E _. destruct (C66_worker_joined _ _ _ R E) as [N1 N2].
  apply reach_inv in R as [P (F1 & F2 & F3 & F4 & _)].
  destruct (worker s) eqn:Ew; try congruence.
  - rewrite (F2 eq_refl) in *. symmetry in F1. apply app_eq_nil in F1 as [-> _]. reflexivity.
  - rewrite (F4 _ eq_refl), app_nil_r in F1. auto.
Qed.

(** No deadlock.  A main thread that waits for the worker to start is released by
    the worker's next step, however that ends; one that waits for it to end is
    released by the worker's next step, which is possible whether or not the worker is
    busy.  In every other state the main thread itself can go on. *)
Theorem C66_never_stuck : forall c s, reach c s ->
  (exists r, main s = MDone r) \/
  (forall o, exists s', step c s (EMain o) = Some s') \/
  (forall o b, exists s1, step c s (EWorker o b) = Some s1 /\
     forall o', exists s2, step c s1 (EMain o') = Some s2 /\
       match main s with MJoin r => main s2 = MDone r | _ => True end).
Proof.
  intros c s R. apply reach_inv in R as [P F]. unfold phase in P.
  destruct F as (F1 & F2 & F3 & F4 & F5 & F6 & F7 & F8).
  destruct (main s) eqn:Em; eauto.
  - right; left. intros o. cbn. unfold step_main. rewrite Em. destruct o; eauto.
  - right; left. intros o. cbn. unfold step_main. rewrite Em. destruct (has_metadata c), o; eauto.
  - destruct P as (Hm & W & Sv & Se & P1 & P2).
    destruct (worker s) eqn:Ew; [congruence| | |].
    + right; right. intros o b. cbn. unfold step_worker. rewrite Ew.
      destruct o; (eexists; split; [reflexivity|]); intros o'; unfold step_main; cbn; rewrite Em; cbn; eauto.
    + right; left. intros o. cbn. unfold step_main. rewrite Em, (P1 eq_refl). eauto.
    + right; left. intros o. cbn. unfold step_main. rewrite Em, Ew. destruct (status s) as [[|]|]; eauto.
  - right; left. intros o. cbn. unfold step_main. rewrite Em. destruct o; eauto.
  - right; left. intros o. cbn. unfold step_main. rewrite Em. destruct o; eauto. destruct (forever c); eauto.
  - right; left. intros o. cbn. unfold step_main. rewrite Em. eauto.
  - destruct P as (W & P1 & P2 & _). destruct (worker s) eqn:Ew; [|congruence| |].
    + right; left. intros o. cbn. unfold step_main. rewrite Em, Ew. eauto.
    + right; right. intros o b. cbn. unfold step_worker. rewrite Ew.
      pose proof (P2 eq_refl) as Hin. pose proof (proj2 (existsb_shut _) Hin) as Hx.
      destruct (box s) as [|q l] eqn:Eb; [destruct Hin|]. rewrite andb_false_r.
      eexists. split; [reflexivity|]. intros o'. unfold step_main; cbn [main worker]. rewrite Em, Hx.
      destruct o; eexists; split; reflexivity.
    + right; left. intros o. cbn. unfold step_main. rewrite Em, Ew. eauto.
Qed.

(** Runs, for the examples. *)
Fixpoint play (c : cfg) (s : st) (es : list event) : option st :=
  match es with
  | [] => Some s
  | e :: es' => match step c s e with Some s1 => play c s1 es' | None => None end
  end.

Lemma play_reach : forall c es s s', reach c s -> play c s es = Some s' -> reach c s'.
Proof.
  induction es as [|e es IH]; intros s s' R E; cbn in E.
  - injection E as <-. exact R.
  - destruct (step c s e) as [s1|] eqn:Es; [|discriminate]. eapply IH; [|exact E].
    eapply reach_step; eauto.
Qed.

Definition ublk : cfg := {| has_metadata := true; forever := false |}.
Definition vhost : cfg := {| has_metadata := true; forever := true |}.

(** A ublk backend: two stripes are asked for, the second one just before the device
    goes away; the worker takes both, then the call returns. *)
Example C66_nonvacuous : exists s, reach ublk s /\ main s = MDone ROk /\ served s = 1 /\
  worker s = WGone false /\ handled s = [RFetch 3; RSetWritten 4; RShutdown].
Proof.
  eexists. split.
  - apply (play_reach ublk [EMain ROk; EMain ROk; EWorker ROk false; EMain ROk; EMain ROk;
      EGuest (RFetch 3); EWorker ROk false; EGuest (RSetWritten 4); EMain ROk; EMain ROk;
      EWorker ROk true; EMain ROk] init); [constructor|vm_compute; reflexivity].
  - vm_compute. repeat split.
Qed.

(** A worker that cannot be built: the call fails, nothing is served. *)
Example C66_failed_nonvacuous : exists s, reach vhost s /\ main s = MDone RErr /\
  status s = None /\ worker s = WGone true /\ served s = 0.
Proof.
  eexists. split.
  - apply (play_reach vhost [EMain ROk; EMain ROk; EWorker RPanic false; EMain ROk; EMain ROk; EMain ROk] init); [constructor|vm_compute; reflexivity].
  - vm_compute. repeat split.
Qed.

(** What does not hold: that a worker which ends later is noticed.  After a panic of
    the worker a vhost backend goes on to serve client after client, while every
    stripe its guests ask for is refused. *)
Theorem C66_refuted_worker_death : forall n, exists s,
  reach vhost s /\ worker s = WGone true /\ main s = MServing /\ served s = S n /\
  length (refused s) = n /\ handled s = [].
Proof.
  induction n as [|n (s & R & W & M & Sv & L & H)].
  - eexists. split.
    + apply (play_reach vhost [EMain ROk; EMain ROk; EWorker ROk false; EMain ROk; EMain ROk;
        EWorker RPanic true] init); [constructor|vm_compute; reflexivity].
    + vm_compute. repeat split.
  - eexists. split.
    + eapply (play_reach vhost [EGuest (RFetch 0); EMain ROk] s); [exact R|].
      cbn. rewrite M. unfold send. rewrite W. unfold step_main. cbn. rewrite M. cbn. reflexivity.
    + cbn. rewrite ?W, Sv, app_length, L, H. cbn. repeat split. lia.
Qed.

Print Assumptions C66_serves_behind_a_started_worker.
Print Assumptions C66_failed_start_reported.
Print Assumptions C66_success_means_served.
Print Assumptions C66_worker_joined.
Print Assumptions C66_requests_drained.
Print Assumptions C66_never_stuck.
Print Assumptions C66_refuted_worker_death.
