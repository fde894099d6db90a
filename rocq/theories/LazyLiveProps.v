(** Liveness of the lazy device: every request completes (C18) and autofetch
    fetches everything and disconnects from the source (C15).  The refutation of C18
    for failing metadata writes is in LazyRefuted.v. *)
From Coq Require Import List Arith NArith Bool Lia ZifyBool ZifyNat.
Import ListNotations.
From Verif Require Import Base BaseFacts DiskSpec LazyState MetadataModel LazyModel LazySpec LazyLiveSpec LazyInv LazyTac LazyInvGuest LazyInvFetch LazyInvMeta LazySim LazyInv2 LazyReach LazyRun LazyProofs LazyProps LazyLive LazyProgress.

(** Stripes marked as having source data begin inside the source. *)
Definition source_covers {V} (c : cfg V) (h : nat -> N) : Prop :=
  forall st, st < nst c -> has_flag FLAG_HAS_SOURCE (h st) = true -> st * ssc c < src c.

(** C18: every request the guest ever issues is answered later, with success, on
    the queue and with the id it was issued with. *)
Theorem C18_every_request_completes : forall V (c : cfg V) base h s0 ev,
  well_configured c h -> source_covers c h -> just_started c base h s0 ->
  no_permanent_errors c s0 ev -> keeps_running c s0 ev ->
  forall t q id r, ev t = EAdd q id r ->
    In (TIssue (next (at_time c s0 ev t)) q id r) (seen c s0 ev t) /\
    exists t' data, t < t' /\ In (TDone (next (at_time c s0 ev t)) q id true data) (seen c s0 ev t').
Proof.
  intros V c base h s0 ev WC SRC ST NE KR t q id r E. split; [|eapply requests_complete; eauto].
  unfold seen. rewrite E. unfold step. destruct (good c base h WC SRC s0 ST ev NE KR t) as [_ [Hp _] _ _ _]. rewrite Hp. now left.
Qed.

Lemma started_reached {V} (c : cfg V) base h s0 : just_started c base h s0 -> exists es, s0 = reached c base h es.
Proof. intros [->|(es & pb & pm & ->)]; [exists []; reflexivity|eauto]. Qed.

(** C15: with autofetch there is a time from which on every stripe with source data
    is fetched, this is recorded durably, and the source is disconnected. *)
Theorem C15_autofetch_completes : forall V (c : cfg V) base h s0 ev,
  well_configured c h -> source_covers c h -> autofetch c = true -> just_started c base h s0 ->
  no_permanent_errors c s0 ev -> keeps_running c s0 ev ->
  exists t, forall u, t <= u ->
    (forall st, st < nst c -> has_flag FLAG_HAS_SOURCE (h st) = true ->
       shf (at_time c s0 ev u) st = Fetched /\ durable_flag c (at_time c s0 ev u) FLAG_FETCHED st) /\
    fdisc (at_time c s0 ev u) = true /\ slive (at_time c s0 ev u) = false.
Proof.
  intros V c base h s0 ev WC SRC Ha ST NE KR.
  destruct (all_fetched_soon c base h WC SRC s0 ST ev NE KR Ha 0) as (t1 & _ & _ & H1).
  assert (Hd : fdisc s0 = false) by (destruct ST as [->|(es & pb & pm & ->)]; [reflexivity|rewrite reached_app; reflexivity]).
  destruct (disconnected_soon c base h WC SRC s0 ST ev NE KR Ha Hd) as (t2 & H2).
  exists (max t1 t2). intros u L. split; [|apply H2; lia]. intros st Hst Hs.
  assert (Hf : shf (at_time c s0 ev u) st = Fetched).
  { apply (mo_fet _ _ (mono c base h WC SRC s0 ST ev NE KR t1 u ltac:(lia))). apply H1; auto. }
  split; auto. destruct (started_reached c base h s0 ST) as (es & ->). unfold at_time in *. rewrite <- reached_app in *. apply fetched_durable; auto.
Qed.

(** ** A concrete execution *)

(** [L] and then the worker's loop and the polling of all queues for ever; queue
    [k] is polled at the rounds [n * n + k] with [k <= n]. *)
Definition idle_round {V} (k : nat) : event V :=
  match k mod 7 with
  | 0 => EWRecv | 1 => EWAutofetch | 2 => EWStartFetch true | 3 => EWTakeFinished
  | 4 => EWStartWrite | 5 => EWDisconnect | _ => EFront (k / 7 - Nat.sqrt (k / 7) * Nat.sqrt (k / 7))
  end.
Definition forever {V} (L : list (event V)) (t : nat) : event V :=
  nth t L (idle_round (t - length L)).

(** Nothing is left to do. *)
Record quiet {V} (s : state V) : Prop := {
  q_chq : forall q, chq s q = []; q_mq : mq s = []; q_fq : fq s = []; q_fauto : fauto s = [];
  q_ffin : ffin s = []; q_mqueue : mqueue s = []; q_disc : fdisc s = true;
  q_ops : forall n, ops s n = None; q_sops : forall n, sops s n = None; q_mops : forall n, mops s n = None
}.

Lemma idle_same {V} (c : cfg V) s k : quiet s -> fst (step c s (idle_round k)) = s.
Proof.
  intros [A B C D E F G _ _ _]. unfold idle_round.
  assert (H : forall e, In e [EWRecv; EWAutofetch; EWStartFetch true; EWTakeFinished; EWStartWrite; EWDisconnect] \/ (exists q, e = EFront q) -> fst (step c s e) = s).
  { intros e [[<-|[<-|[<-|[<-|[<-|[<-|[]]]]]]]|(q & ->)]; unfold step; destruct (panic s); try reflexivity; cbn [fst]; unfold worker; try (destruct (wdone s); [reflexivity|]).
    - unfold worker_recv. now rewrite B.
    - unfold update_autofetch. rewrite C, D. now destruct (autofetch c).
    - unfold start_fetch. now rewrite C.
    - unfold take_finished_fetches. rewrite E, F. cbn. destruct s. cbn in *. subst. reflexivity.
    - unfold start_meta_write. now rewrite F.
    - unfold disconnect. now rewrite G.
    - unfold process_front. now rewrite A. }
  apply H. destruct (k mod 7) as [|[|[|[|[|[|]]]]]]; cbn; eauto 10.
Qed.

Lemma forever_prefix {V} (L : list (event V)) t : t <= length L -> map (forever L) (seq 0 t) = firstn t L.
Proof.
  intros H. apply (nth_ext _ _ EWRecv EWRecv); [rewrite map_length, seq_length, firstn_length; lia|]. intros i Hi. rewrite map_length, seq_length in Hi.
  rewrite (nth_indep _ EWRecv (forever L 0)) by (rewrite map_length, seq_length; lia). rewrite map_nth, seq_nth by lia. cbn [plus]. unfold forever.
  rewrite MetadataProofs.nth_firstn by lia. apply nth_indep. lia.
Qed.
Lemma at_time_prefix {V} (c : cfg V) s0 L t : t <= length L -> at_time c s0 (forever L) t = fst (run c s0 (firstn t L)).
Proof. intros H. unfold at_time. now rewrite forever_prefix. Qed.
Lemma at_time_after {V} (c : cfg V) s0 L k : quiet (fst (run c s0 L)) -> at_time c s0 (forever L) (length L + k) = fst (run c s0 L).
Proof.
  intros Q. induction k as [|k IH].
  - rewrite Nat.add_0_r, at_time_prefix, firstn_all; auto.
  - rewrite Nat.add_succ_r. unfold at_time in *. rewrite seq_S, map_app, run_app. cbn [map plus]. rewrite IH. unfold run at 1.
    destruct (step c (fst (run c s0 L)) (forever L (length L + k))) as [x y] eqn:Es. cbn [fst].
    assert (Ef : forever L (length L + k) = idle_round k) by (unfold forever; rewrite nth_overflow by lia; f_equal; lia).
    rewrite Ef in Es. pose proof (idle_same c _ k Q) as Y. rewrite Es in Y. exact Y.
Qed.

Lemma idle_again {V} (L : list (event V)) i e : i < 7 -> (forall k, k mod 7 = i -> idle_round k = e) -> again (fun t => forever L t = e).
Proof.
  intros Hi He t. exists (length L + (7 * t + i)). split; [lia|]. unfold forever. rewrite nth_overflow by lia. apply He.
  replace (length L + (7 * t + i) - length L) with (i + t * 7) by lia. rewrite Nat.mod_add by lia. now apply Nat.mod_small.
Qed.
Lemma poll_again {V} (L : list (event V)) q : again (fun t => forever L t = EFront q).
Proof.
  intros t. exists (length L + (7 * ((t + q) * (t + q) + q) + 6)). split; [nia|]. unfold forever. rewrite nth_overflow by lia.
  set (k := length L + _ - length L). assert (Ek : k = 6 + ((t + q) * (t + q) + q) * 7) by (unfold k; lia). clearbody k. subst k.
  unfold idle_round. rewrite Nat.mod_add by lia. rewrite (Nat.mod_small 6 7) by lia. rewrite Nat.div_add by lia. change (6 / 7) with 0. cbn [plus].
  rewrite (Nat.sqrt_unique ((t + q) * (t + q) + q) (t + q)) by nia. f_equal. lia.
Qed.

Lemma forever_runs {V} (c : cfg V) s0 L : quiet (fst (run c s0 L)) -> keeps_running c s0 (forever L).
Proof.
  intros Q. assert (After : forall P : state V -> Prop, P (fst (run c s0 L)) -> again (fun t => P (at_time c s0 (forever L) t))).
  { intros P HP t. exists (length L + t). split; [lia|]. now rewrite at_time_after. }
  constructor.
  - apply poll_again.
  - apply (idle_again L 0); [lia|]. intros k Hk. unfold idle_round. now rewrite Hk.
  - apply (idle_again L 1); [lia|]. intros k Hk. unfold idle_round. now rewrite Hk.
  - intros t. destruct (idle_again L 2 (EWStartFetch true) ltac:(lia)) with (t := t) as (u & A & B); [intros k Hk; unfold idle_round; now rewrite Hk|]. exists u. eauto.
  - apply (idle_again L 3); [lia|]. intros k Hk. unfold idle_round. now rewrite Hk.
  - apply (idle_again L 4); [lia|]. intros k Hk. unfold idle_round. now rewrite Hk.
  - apply (idle_again L 5); [lia|]. intros k Hk. unfold idle_round. now rewrite Hk.
  - intros n. apply (After (fun s => ops s n = None)). apply Q.
  - intros n. apply (After (fun s => sops s n = None)). apply Q.
  - intros n. apply (After (fun s => mops s n = None)). apply Q.
Qed.

(** If no stripe fails during [L] then none ever does. *)
Definition unfailed {V} (c : cfg V) (s0 : state V) (L : list (event V)) : bool :=
  forallb (fun t => forallb (fun st => match shf (fst (run c s0 (firstn t L))) st with Failed => false | _ => true end) (seq 0 (nst c))) (seq 0 (S (length L))).
Lemma forever_unfailed {V} (c : cfg V) base h before s0 L : s0 = reached c base h before -> well_configured c h -> quiet (fst (run c s0 L)) ->
  unfailed c s0 L = true -> forall t st, shf (at_time c s0 (forever L) t) st <> Failed.
Proof.
  intros -> WC Q U t st. unfold unfailed in U. rewrite forallb_forall in U.
  assert (W : forall t, t <= length L -> shf (fst (run c (reached c base h before) (firstn t L))) st <> Failed).
  { intros u Hu HF. specialize (U u ltac:(apply in_seq; lia)). rewrite forallb_forall in U.
    destruct (Nat.ltb_spec st (nst c)) as [Lt|Lt].
    - specialize (U st ltac:(apply in_seq; lia)). rewrite HF in U. discriminate.
    - rewrite <- reached_app in HF. pose proof (proj2 (i_M_shf _ _ _ (k_inv _ _ _ (ok_reached c base h WC (before ++ firstn u L))) st) Lt). congruence. }
  destruct (Nat.leb_spec t (length L)) as [Lt|Lt].
  - rewrite at_time_prefix by auto. apply W; auto.
  - replace t with (length L + (t - length L)) by lia. rewrite at_time_after by exact Q. specialize (W (length L) (le_n _)). rewrite firstn_all in W. exact W.
Qed.

(** The device of LazyProps.v with autofetch, started again after a crash in the
    middle of fetching stripe 0.  A write to stripe 0 and a read of both source
    stripes wait, one attempt to fetch stripe 0 fails, everything is fetched and the
    requests complete. *)
Definition lv_cfg : cfg nat := mk_cfg 2 3 2 6 4 false (fun x => 100 + x) 0 true false true.
Definition lv_before : list (event nat) := [EWAutofetch; EWStartFetch true; EWSrcDone 1 true; EApply 2 1; ECrash (fun _ => 0) (fun _ => 0)].
Definition lv_start : state nat := reached lv_cfg ex_base ex_h lv_before.
Definition lv_run : list (event nat) :=
  [ EAdd 0 7 (RWrite 1 [55]); EAdd 1 8 (RRead 0 4); EFront 0; EFront 1; EWRecv; EWRecv; EWRecv; EWRecv; EWAutofetch;
    EWStartFetch true; EWStartFetch true; EWSrcDone 5 false; EWStartFetch true; EWSrcDone 6 true; EWSrcDone 7 true;
    EApply 8 0; EApply 8 1; EDone 8 true; EDone 10 true; EApply 9 1; EApply 9 0; EDone 9 true; EDone 11 true; EWAutofetch; EWAutofetch;
    EWTakeFinished; EWStartWrite; EMApply 12; EWMetaDone 12 true; EWMetaDone 13 true; EWStartWrite; EMApply 14; EWMetaDone 14 true;
    EWMetaDone 15 true; EWStartWrite; EMApply 16; EWMetaDone 16 true; EWMetaDone 17 true; EFront 0; EFront 1; EApply 3 0; EDone 3 true;
    ESample 4 0; ESample 4 1; ESample 4 2; ESample 4 3; EDone 4 true; EWDisconnect ].

Example lv_well_configured : well_configured lv_cfg ex_h /\ source_covers lv_cfg ex_h /\ just_started lv_cfg ex_base ex_h lv_start.
Proof.
  split; [apply (fresh_device_well_configured lv_cfg 2); cbn; auto with arith|]. split.
  - intros st Hst Hf. change (nst lv_cfg) with 3 in Hst. destruct st as [|[|[|]]]; [cbn; lia|cbn; lia|discriminate Hf|lia].
  - right. exists (firstn 4 lv_before), (fun _ => 0), (fun _ => 0). reflexivity.
Qed.

Example lv_history : snd (run lv_cfg lv_start lv_run) =
  [ TIssue 3 0 7 (RWrite 1 [55]); TIssue 4 1 8 (RRead 0 4); TDone 3 0 7 true []; TDone 4 1 8 true [Some 100; Some 55; Some 102; Some 103] ].
Proof. vm_compute. reflexivity. Qed.

Lemma lv_quiet : quiet (fst (run lv_cfg lv_start lv_run)).
Proof.
  destruct lv_well_configured as (WC & _ & _).
  assert (E : fst (run lv_cfg lv_start lv_run) = reached lv_cfg ex_base ex_h (lv_before ++ lv_run)) by (unfold lv_start; now rewrite <- reached_app).
  rewrite E. pose proof (k_inv _ _ _ (ok_reached lv_cfg ex_base ex_h WC (lv_before ++ lv_run))) as HI.
  assert (C : let s := reached lv_cfg ex_base ex_h (lv_before ++ lv_run) in
    next s = 18 /\ mq s = [] /\ fq s = [] /\ fauto s = [] /\ ffin s = [] /\ mqueue s = [] /\ fdisc s = true /\
    map (ops s) (seq 0 18) = repeat None 18 /\ map (sops s) (seq 0 18) = repeat None 18 /\ map (mops s) (seq 0 18) = repeat None 18).
  { vm_compute. repeat (split; [reflexivity|]). reflexivity. }
  assert (Q : forall q, chq (reached lv_cfg ex_base ex_h (lv_before ++ lv_run)) q = []).
  { intros [|[|q]]; vm_compute; reflexivity. }
  set (s := reached lv_cfg ex_base ex_h (lv_before ++ lv_run)) in *. cbv zeta in C. clearbody s. destruct C as (C0 & C1 & C2 & C3 & C4 & C5 & C6 & C7 & C8 & C9).
  assert (G : forall A (f : nat -> option A), (forall n o, f n = Some o -> n < next s) -> map f (seq 0 18) = repeat None 18 -> forall n, f n = None).
  { intros A f Hn Hm n. destruct (f n) eqn:Ef; auto. pose proof (Hn n _ Ef) as L. rewrite C0 in L.
    assert (Y : nth n (map f (seq 0 18)) None = f n).
    { rewrite (nth_indep _ None (f 0)) by (rewrite map_length, seq_length; lia). rewrite map_nth, seq_nth by lia. reflexivity. }
    rewrite Hm in Y. rewrite <- Ef, <- Y. apply nth_repeat. }
  constructor; auto; (eapply G; [|eassumption]); apply HI.
Qed.

Lemma lv_start_eq : lv_start = reached lv_cfg ex_base ex_h lv_before.
Proof. unfold lv_start. reflexivity. Qed.
Lemma lv_unfailed : unfailed lv_cfg lv_start lv_run = true.
Proof. vm_compute. reflexivity. Qed.

(** All hypotheses of C15 and C18 hold of this infinite execution. *)
Example C18_nonvacuous : no_permanent_errors lv_cfg lv_start (forever lv_run) /\ keeps_running lv_cfg lv_start (forever lv_run).
Proof.
  split; [|apply forever_runs, lv_quiet]. destruct lv_well_configured as (WC & _ & _). pose proof lv_quiet as Q.
  assert (Cases : forall t (P : event nat -> Prop), Forall P lv_run -> (forall k, P (idle_round k)) -> P (forever lv_run t)).
  { intros t P HF HI. unfold forever. destruct (nth_in_or_default t lv_run (idle_round (t - length lv_run))) as [Hi| ->]; auto. rewrite Forall_forall in HF. auto. }
  assert (IR : forall (P : event nat -> Prop), P EWRecv -> P EWAutofetch -> P (EWStartFetch true) -> P EWTakeFinished -> P EWStartWrite -> P EWDisconnect -> (forall q, P (EFront q)) -> forall k, P (idle_round k)).
  { intros P H1 H2 H3 H4 H5 H6 H7 k. unfold idle_round. destruct (k mod 7) as [|[|[|[|[|[|]]]]]]; auto. }
  constructor.
  - intros t q id r. apply (Cases t (fun e => e = EAdd q id r -> in_bounds lv_cfg r)).
    + repeat constructor; try (intros Y; discriminate Y); intros Y; injection Y as <- <- <-; cbn; lia.
    + intros k. pattern (idle_round k : event nat). apply IR; discriminate.
  - intros t. apply (Cases t (fun e => e <> EWShutdown /\ is_crash e = false)); [repeat constructor; discriminate|intros k; pattern (idle_round k : event nat); apply IR; intros; split; discriminate || reflexivity].
  - intros t n ok. apply (Cases t (fun e => e = EWMetaDone n ok -> ok = true)); [repeat constructor; congruence|intros k; pattern (idle_round k : event nat); apply IR; discriminate].
  - intros t n ok E _. revert E. apply (Cases t (fun e => e = EDone n ok -> ok = true)); [repeat constructor; congruence|intros k; pattern (idle_round k : event nat); apply IR; discriminate].
  - intros t st. exact (forever_unfailed lv_cfg ex_base ex_h lv_before lv_start lv_run lv_start_eq WC Q lv_unfailed t st).
Qed.

Print Assumptions C18_every_request_completes.
Print Assumptions C15_autofetch_completes.
Print Assumptions C18_nonvacuous.
