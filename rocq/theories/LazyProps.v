(** Properties C06-C14, C16, C17 and C19 of the lazy block device.

    All of them range over every sequence of events [es] of the model in
    LazyModel.v: guest requests on any number of queues, any order of worker steps
    and I/O completions, failures of any operation, and any number of crashes with
    any combination of surviving unflushed sectors.  [reached c base h es] is the
    state after [es] from the first start, [history c base h es] what was observed
    (LazySpec.v).  Ordinary disks are defined in DiskSpec.v, predicates on
    observed histories in TraceSpec.v. *)
From Coq Require Import List Arith NArith Bool Lia ZifyBool ZifyNat.
Import ListNotations.
From Verif Require Import Base BaseFacts DiskSpec TraceSpec TraceFacts LazyState MetadataModel LazyModel LazySpec LazyInv LazyTac LazyInvGuest LazyInvFetch LazyInvMeta LazySim LazyInv2 LazyReach LazyRun LazyProofs LazyProofs2.
From Verif Require MetadataProofs.

Section Props.
Context {V : Type}.
Variable c : cfg V.
Variable base : nat -> V.
Variable h : nat -> N.

(** ** C06: the lazy device is an ordinary disk *)

(** Every history of the lazy device is a history of an ordinary disk that
    initially holds the image overlaid on the base device, and at every moment the
    contents of that disk are the logical contents of the lazy device. *)
Theorem C06_lazy_device_is_a_disk : well_configured c h -> forall es,
  exists d, disk_behaviour (target c) (initial_contents c base h) (history c base h es) d /\
    forall x, x < target c -> cur (d_hist d x) = logical c (reached c base h es) x.
Proof. intros WC es. apply is_a_disk; auto. Qed.

(** Background activity never changes the logical contents. *)
Theorem C06_background_keeps_contents : well_configured c h -> forall es e x,
  background (reached c base h es) e = true -> x < target c ->
  logical c (reached c base h (es ++ [e])) x = logical c (reached c base h es) x.
Proof.
  intros WC es e x Hb Hx. rewrite reached_app. rewrite run_cons. cbn [run fst]. apply background_keeps; auto.
Qed.

(** ** C07: crash consistency *)

(** Reopening after a crash yields contents the ordinary disk could have after the
    same crash. *)
Theorem C07_crash_is_a_disk_crash : well_configured c h -> forall es pb pm,
  exists d d' survivor,
    disk_behaviour (target c) (initial_contents c base h) (history c base h es) d /\
    dstep (target c) d (DCrash survivor) = Some (d', [TCrash]) /\
    forall x, x < target c -> cur (d_hist d' x) = logical c (reached c base h (es ++ [ECrash pb pm])) x.
Proof.
  intros WC es pb pm. destruct (crash_is_a_disk_crash c base h WC es pb pm) as (d & d' & sv & A & B & C). exists d, d', sv. split; auto. split; auto.
  intros x Hx. rewrite reached_app, run_cons. cbn [run fst]. auto.
Qed.

(** In every history, with any number of crashes: a read returns, for each sector,
    the initial contents or data of a write issued earlier to that sector. *)
Theorem C07_no_foreign_data : well_configured c h -> forall es,
  reads_return_written (target c) (initial_contents c base h) (history c base h es).
Proof. intros WC es. destruct (is_a_disk c base h WC es) as (d & A & _). eapply disk_reads_return_written; eauto. Qed.

(** A completed write is seen by later reads, across crashes if a flush issued
    after it completed before the first crash (TraceSpec.v). *)
Theorem C07_flushed_writes_survive : well_configured c h -> forall es,
  reads_see_writes (target c) (history c base h es).
Proof. intros WC es. destruct (is_a_disk c base h WC es) as (d & A & _). eapply disk_reads_see_writes; eauto. Qed.

(** ** C08: copy-on-write ordering *)

(** While a guest write to sector x is at the base device, the stripe of x has no
    source data or is durably recorded as fetched. *)
Theorem C08_write_only_after_fetch : well_configured c h -> forall es x,
  guest_writing (reached c base h es) x -> x / ssc c < nst c ->
  has_flag FLAG_HAS_SOURCE (h (x / ssc c)) = false \/
  durable_flag c (reached c base h es) FLAG_FETCHED (x / ssc c).
Proof. intros WC es x Hw Hx. apply (released_cases c base h WC es); auto. apply writing_released; auto. Qed.

(** A stripe with source data becomes usable for guest I/O on the base device only
    in a step after which the base device durably holds the image's data in the
    whole stripe (no other value can be found there after a crash) and the fetched
    flag is durable. *)
Theorem C08_released_after_durable_copy : well_configured c h -> forall es e st, st < nst c ->
  released (shf (reached c base h es) st) = false ->
  released (shf (reached c base h (es ++ [e])) st) = true ->
  has_flag FLAG_HAS_SOURCE (h st) = true /\
  (forall x, x < target c -> x / ssc c = st -> exists w, bh (reached c base h (es ++ [e])) x = [(w, image c x)]) /\
  durable_flag c (reached c base h (es ++ [e])) FLAG_FETCHED st.
Proof. intros WC es e st. apply release_step; auto. Qed.

(** Once a guest write to x has been issued, no background copy covers x, then or
    at any later time (even after crashes). *)
Theorem C08_no_copy_after_write : well_configured c h -> forall es1 es2 x,
  guest_writing (reached c base h es1) x -> ~ copying (reached c base h (es1 ++ es2)) x.
Proof.
  intros WC es1 es2 x Hw Hc. destruct (writing_released c base h WC es1 x Hw) as [A _].
  destruct (copying_unreleased c base h WC (es1 ++ es2) x Hc) as [B C].
  rewrite (mo_rel _ _ (mono_reached c base h WC es1 es2) _ A) in B. discriminate.
Qed.

(** ** C09: written tracking *)

(** While a guest write to x is at the base device, and ever after, the written
    flag of its stripe is durable. *)
Theorem C09_written_before_write : well_configured c h -> track c = true -> forall es1 es2 x,
  guest_writing (reached c base h es1) x ->
  durable_flag c (reached c base h (es1 ++ es2)) FLAG_WRITTEN (x / ssc c).
Proof.
  intros WC Ht es1 es2 x Hw. apply written_durable; auto. apply (mo_shw _ _ (mono_reached c base h WC es1 es2)).
  apply writing_released; auto.
Qed.

(** In terms of the history: every stripe touched by a successfully completed
    write is durably marked written, whatever happened since. *)
Theorem C09_completed_writes_marked : well_configured c h -> track c = true -> forall es n q id r d st,
  In (TIssue n q id r) (history c base h es) -> In (TDone n q id true d) (history c base h es) ->
  (exists off data, r = RWrite off data) -> touches c r st ->
  durable_flag c (reached c base h es) FLAG_WRITTEN st.
Proof.
  intros WC Ht es n q id r d st Hi Hd (off & data & ->) (i & Hl & <-). apply written_durable; auto.
  eapply acked_write_marked; eauto.
Qed.

(** ** C10: acknowledged flags are never lost *)
Theorem C10_flags_survive : well_configured c h -> forall es1 es2 f st,
  acknowledged (reached c base h es1) f st ->
  acknowledged (reached c base h (es1 ++ es2)) f st /\
  durable_flag c (reached c base h (es1 ++ es2)) f st.
Proof.
  intros WC es1 es2 f st H. pose proof (mono_reached c base h WC es1 es2) as M.
  assert (A : acknowledged (reached c base h (es1 ++ es2)) f st).
  { destruct H as [[-> H]|[-> H]]; [left|right]; split; auto; [apply (mo_fet _ _ M)|apply (mo_shw _ _ M)]; auto. }
  split; auto. destruct A as [[-> A]|[-> A]]; [apply fetched_durable|apply written_durable]; auto.
Qed.

(** ** C11: completions *)
Theorem C11_completions_match : well_configured c h -> forall es, completions_match (history c base h es).
Proof. intros WC es. destruct (is_a_disk c base h WC es) as (d & A & _). eapply disk_completions_match; eauto. Qed.

(** ** C12: fetch attempts *)

Theorem C12_at_most_four_attempts : well_configured c h -> forall es st,
  attempts c st (init c base h) es 0 <= 4.
Proof.
  intros WC es st. pose proof (wf_of c h WC) as WF. eapply (attempts_run c _ WF es st (init c base h) 0).
  - apply (ok_reached c base h WC []).
  - split; [lia|]. unfold init, boot. cbv zeta. sred. auto.
Qed.

(** A stripe stops being requested (other than by a crash) only by its fourth failed
    attempt, and is then marked failed. *)
Theorem C12_given_up_only_after_four : well_configured c h -> forall es e st,
  is_crash e = false ->
  fsts (reached c base h es) st <> None -> fsts (reached c base h (es ++ [e])) st = None ->
  attempts c st (init c base h) (es ++ [e]) 0 = 4 /\ shf (reached c base h (es ++ [e])) st = Failed.
Proof.
  intros WC es e st Hc H1 H2. pose proof (wf_of c h WC) as WF. pose proof (ok_reached c base h WC es) as HO.
  rewrite attempts_app. fold (reached c base h es). rewrite attempts_cons. cbn [attempts]. unfold next_attempts. rewrite Hc.
  rewrite reached_app, run_cons in *. cbn [run fst] in *.
  pose proof (ft_step c _ (reached c base h es) e st HO Hc) as T.
  assert (A : attempts_ok (reached c base h es) st (attempts c st (init c base h) es 0)).
  { apply (attempts_run c (hs h) WF es st (init c base h) 0).
    - apply (ok_reached c base h WC []).
    - split; [lia|]. unfold init, boot. cbv zeta. sred. auto. }
  set (s := reached c base h es) in *. set (s' := fst (step c s e)) in *. set (n := attempts c st (init c base h) es 0) in *. clearbody s s' n. clear HO.
  destruct A as [An Am]. unfold MAX_FETCH_RETRIES in *. destruct T as [A B C|A B C D|A B C D|A B C D|A B C D|A B C D E|A B C D]; try congruence. split; auto.
  destruct A as [[-> F]|[-> F]].
  - rewrite F in *. unfold MAX_FETCH_RETRIES in B. lia.
  - destruct F as [F|F]; rewrite F in *; unfold MAX_FETCH_RETRIES in B; lia.
Qed.

(** A fetch otherwise ends with the stripe handed over to be recorded as fetched. *)
Theorem C12_fetched_is_reported : well_configured c h -> forall es e st,
  fsts (reached c base h es) st <> Some FFetched -> fsts (reached c base h (es ++ [e])) st = Some FFetched ->
  fetching (reached c base h es) st /\ In (st, true) (ffin (reached c base h (es ++ [e]))).
Proof.
  intros WC es e st H1 H2. pose proof (wf_of c h WC) as WF. pose proof (ok_reached c base h WC es) as HO.
  rewrite reached_app, run_cons in *. cbn [run fst] in *. destruct (is_crash e) eqn:Hc.
  - destruct e; try discriminate.
  - destruct (ft_step c _ (reached c base h es) e st HO Hc) as [A B C|A B C D|A B C D|A B C D|A B C D|A B C D E|A B C D]; try congruence.
    unfold fetching. auto.
Qed.

(** A waiting request none of whose stripes is still awaited and one of whose stripes
    failed is taken off its queue and reported as failed. *)
Theorem C12_waiting_request_is_failed : 0 < ssc c -> forall (s : state V) q r rest,
  panic s = false -> chq s q = r :: rest ->
  (forall st, touches c (rq_req r) st -> st < nst c /\ shf s st <> NotFetched) ->
  (exists st, touches c (rq_req r) st /\ shf s st = Failed) ->
  exists s1 s2 out, step c s (EFront q) = (s1, []) /\ chq s1 q = rest /\ step c s1 (ETakeFinished q) = (s2, out) /\
    In (TDone (rq_serial r) q (rq_id r) false []) out.
Proof.
  intros Hs s q r rest Hp Hq Hall (st & Ht & Hf).
  assert (X : forall st, In st (req_stripes c (rq_req r)) -> touches c (rq_req r) st).
  { intros x Hx. assert (G : forall off len, (exists i, i < len) -> In x (stripes_of c off len) -> exists i, i < len /\ (off + i) / ssc c = x).
    { intros off len (i0 & Hi0) Hin. unfold stripes_of in Hin. apply in_seq in Hin. unfold stripe_first, stripe_last in Hin.
      destruct (Nat.eqb_spec (off + len) 0); [lia|].
      assert (A1 : off / ssc c <= x) by lia. assert (A2 : x <= (off + len - 1) / ssc c) by lia.
      pose proof (Nat.mul_div_le (off + len - 1) (ssc c) ltac:(lia)). pose proof (Nat.mul_succ_div_gt off (ssc c) ltac:(lia)).
      destruct (Nat.eq_dec x (off / ssc c)) as [->|]; [exists 0; rewrite Nat.add_0_r; split; [lia|auto]|].
      assert (A3 : ssc c * S (off / ssc c) <= ssc c * x) by (apply Nat.mul_le_mono_l; lia).
      assert (A4 : ssc c * x <= ssc c * ((off + len - 1) / ssc c)) by (apply Nat.mul_le_mono_l; lia).
      exists (ssc c * x - off). split; [lia|]. replace (off + (ssc c * x - off)) with (x * ssc c) by lia. apply Nat.div_mul. lia. }
    unfold touches, req_stripes in *. destruct (rq_req r) as [off len|off data|]; cbn [req_extent fst snd] in *;
      [destruct Ht as (i & Hi & _); eauto|destruct Ht as (i & Hi & _); eauto|destruct Ht]. }
  assert (Y : In st (req_stripes c (rq_req r))).
  { assert (G : forall off len i, i < len -> In ((off + i) / ssc c) (stripes_of c off len)).
    { intros off len i Hi. unfold stripes_of, stripe_first, stripe_last. destruct (Nat.eqb_spec (off + len) 0); [lia|]. apply in_seq.
      assert (off / ssc c <= (off + i) / ssc c) by (apply Nat.div_le_mono; lia). assert ((off + i) / ssc c <= (off + len - 1) / ssc c) by (apply Nat.div_le_mono; lia). lia. }
    unfold touches, req_stripes in *. destruct (rq_req r) as [off len|off data|]; cbn [req_extent fst snd] in *;
      [destruct Ht as (i & Hi & <-); auto|destruct Ht as (i & Hi & <-); auto|destruct Ht]. }
  assert (Z : fetch_status c s (req_stripes c (rq_req r)) = SFailed).
  { assert (W : forall x, In x (req_stripes c (rq_req r)) -> x < nst c /\ shf s x <> NotFetched) by auto. clear - W Y Hf.
    induction (req_stripes c (rq_req r)) as [|x l IH]; [destruct Y|]. cbn [fetch_status]. destruct (W x (or_introl eq_refl)) as [W1 W2].
    destruct (Nat.ltb_spec x (nst c)); [|lia]. destruct Y as [->|Y]; [rewrite Hf; auto|].
    assert (IH' : fetch_status c s l = SFailed) by (apply IH; auto; intros y Hy; apply W; now right).
    destruct (shf s x); auto. congruence. }
  eexists. eexists. eexists. split.
  - unfold step. rewrite Hp. unfold process_front. rewrite Hq, Z. reflexivity.
  - unfold fail_req. split; [sred; unfold upd; now rewrite Nat.eqb_refl|]. split.
    + unfold step. sred. rewrite Hp. unfold take_finished. sred. reflexivity.
    + apply in_map_iff. exists (rq_serial r, rq_id r). split; auto. unfold upd. rewrite Nat.eqb_refl. apply in_app_iff. right. now left.
Qed.

(** ** C13: bounded concurrency, distinct buffers *)

Theorem C13_at_most_16_fetches : well_configured c h -> forall es l,
  NoDup l -> (forall st, In st l -> fetching (reached c base h es) st) -> length l <= 16.
Proof. intros WC es l. apply fetching_bound; auto. Qed.

Theorem C13_fetch_buffers_distinct : well_configured c h -> forall es st,
  fetching (reached c base h es) st ->
  exists b, fbuf (reached c base h es) st = Some b /\ b < 16 /\ ~ In b (favail (reached c base h es)) /\
    forall st', fbuf (reached c base h es) st' = Some b -> st' = st.
Proof.
  intros WC es st Hf. destruct (ok_reached c base h WC es) as [HI _ [HE _ _]]. destruct (ef_buf _ _ HE st Hf) as (b & Eb).
  destruct (i_F_buf _ _ _ HI _ _ Eb) as (A & B & C). exists b. split; [auto|]. split; [exact C|]. split.
  { intros Hin. destruct (proj2 (i_F_pool _ _ _ HI) b Hin). congruence. }
  intros st' E. eapply (i_F_bufinj _ _ _ HI); eauto.
Qed.

Theorem C13_one_operation_per_stripe : well_configured c h -> forall es st n m,
  fetch_operation (reached c base h es) st n -> fetch_operation (reached c base h es) st m -> n = m.
Proof.
  intros WC es st n m Hn Hm. destruct (ok_reached c base h WC es) as [HI _ _].
  destruct Hn as [n b E|n dv k E], Hm as [m b' E'|m dv' k' E'].
  - eapply (i_F_uniq_sop _ _ _ HI); eauto.
  - exfalso. eapply (i_F_uniq _ _ _ HI); eauto.
  - exfalso. eapply (i_F_uniq _ _ _ HI); eauto.
  - eapply (i_F_uniq_op _ _ _ HI); eauto.
Qed.

(** Source reads and metadata writes in flight use buffers that are theirs alone. *)
Theorem C13_source_buffers_distinct : well_configured c h -> forall es n m st st' b,
  sops (reached c base h es) n = Some (st, b) -> sops (reached c base h es) m = Some (st', b) -> n = m.
Proof.
  intros WC es n m st st' b E E'. destruct (ok_reached c base h WC es) as [HI _ _].
  destruct (i_F_sop _ _ _ HI _ _ _ E) as [_ B]. destruct (i_F_sop _ _ _ HI _ _ _ E') as [_ B'].
  assert (st = st') by (eapply (i_F_bufinj _ _ _ HI); eauto). subst. eapply (i_F_uniq_sop _ _ _ HI); eauto.
Qed.

Theorem C13_at_most_16_metadata_writes : well_configured c h -> forall es l,
  NoDup l -> (forall n, In n l -> exists b, meta_writing (reached c base h es) n b) -> length l <= 16.
Proof.
  intros WC es l Hn Hl. apply (meta_writes_bound c base h WC es); auto. intros n Hin. destruct (Hl n Hin) as (b & st & g & ap & E). eauto.
Qed.

Theorem C13_metadata_buffers_distinct : well_configured c h -> forall es n m b,
  meta_writing (reached c base h es) n b ->
  b < 16 /\ ~ In b (mavail (reached c base h es)) /\ (meta_writing (reached c base h es) m b -> n = m).
Proof.
  intros WC es n m b (st & g & ap & E). destruct (ok_reached c base h WC es) as [HI _ _].
  destruct (i_M_write _ _ _ HI _ _ _ _ _ E) as (_ & (u & Eu & Es & Eb) & _). subst b.
  destruct (i_M_ubuf _ _ _ HI _ _ Eu Es) as (A & B). split; [exact B|]. split.
  { intros Hin. destruct (proj2 (i_M_pool _ _ _ HI) _ Hin). congruence. }
  intros (st' & g' & ap' & E'). destruct (i_M_write _ _ _ HI _ _ _ _ _ E') as (_ & (u' & Eu' & Es' & Eb') & _).
  assert (st = st') by (eapply (i_M_ubufinj _ _ _ HI); eauto). subst. eapply (i_M_uniq _ _ _ HI); eauto.
Qed.

(** No assertion fires (buffer pools, stripe indices) and nothing else panics, as
    long as guest requests lie inside the device. *)
Theorem C13_no_panic : well_configured c h -> forall es,
  (forall q id r, In (EAdd q id r) es -> in_bounds c r) -> panic (reached c base h es) = false.
Proof.
  intros WC es He. pose proof (wf_of c h WC) as WF. apply (fine_run c (hs h) WF es (init c base h)).
  - apply (ok_reached c base h WC []).
  - split; [reflexivity|]. intros q r Hr. destruct Hr.
  - intros q id r Hin. exact (He q id r Hin).
Qed.

(** ** C14: metadata updates *)

(** At most one update per metadata sector is in progress. *)
Theorem C14_one_update_per_sector : well_configured c h -> forall es n m o o',
  mops (reached c base h es) n = Some o -> mops (reached c base h es) m = Some o' ->
  mop_stripe o / hps c = mop_stripe o' / hps c -> n = m.
Proof. intros WC es n m o o'. apply meta_serial; auto. Qed.

(** The sector contents written: the immutable HAS_SOURCE flags, every flag
    acknowledged so far in that sector, and exactly one more. *)
Theorem C14_contents_written : well_configured c h -> forall es n st g b ap,
  mops (reached c base h es) n = Some (MWrite st g b ap) ->
  st < nst c /\ g = st / hps c /\
  exists f0, (f0 = FLAG_FETCHED \/ f0 = FLAG_WRITTEN) /\ ~ acknowledged (reached c base h es) f0 st /\
    forall st', st' < nst c -> st' / hps c = g ->
      has_flag FLAG_HAS_SOURCE (mbufs (reached c base h es) b st') = has_flag FLAG_HAS_SOURCE (h st') /\
      forall f, f = FLAG_FETCHED \/ f = FLAG_WRITTEN ->
        (has_flag f (mbufs (reached c base h es) b st') = true <->
         acknowledged (reached c base h es) f st' \/ (st' = st /\ f = f0)).
Proof. intros WC es n st g b ap. apply meta_contents; auto. Qed.

(** ** C16: disconnection *)

(** Once the source has been dropped, every stripe has no source data or is durably
    recorded as fetched; the source stays dropped; and nothing needs it: no fetch is
    queued and no source request is outstanding. *)
Theorem C16_dropped_only_when_unneeded : well_configured c h -> forall es1 es2,
  slive (reached c base h es1) = false ->
  (forall st, st < nst c -> has_flag FLAG_HAS_SOURCE (h st) = false \/
     durable_flag c (reached c base h es1) FLAG_FETCHED st) /\
  slive (reached c base h (es1 ++ es2)) = false /\
  fq (reached c base h (es1 ++ es2)) = [] /\ forall n, sops (reached c base h (es1 ++ es2)) n = None.
Proof.
  intros WC es1 es2 Hl. assert (Hl2 : slive (reached c base h (es1 ++ es2)) = false).
  { rewrite reached_app. apply slive_run with (h := h); auto. apply ok_reached; auto. }
  destruct (disconnected_idle c base h WC es1 Hl) as (A & _ & _). destruct (disconnected_idle c base h WC _ Hl2) as (_ & B & C).
  split; [|split; auto]. intros st Hst. apply (released_cases c base h WC es1); auto.
Qed.

(** ** C17: status counters *)
Theorem C17_counters : well_configured c h -> forall es,
  cntS (reached c base h es) = count (fun st => has_flag FLAG_HAS_SOURCE (h st)) (nst c) /\
  cntF (reached c base h es) = count (fun st => is_fetched (shf (reached c base h es) st)) (nst c) /\
  cntF (reached c base h es) <= cntS (reached c base h es) <= nst c /\
  (forall st, is_fetched (shf (reached c base h es) st) = true -> durable_flag c (reached c base h es) FLAG_FETCHED st).
Proof.
  intros WC es. destruct (ok_reached c base h WC es) as [HI _ [_ _ HC]]. split; [apply (cn_S _ _ _ HC)|]. split; [apply (cn_F _ _ _ HC)|]. split.
  - rewrite (cn_S _ _ _ HC), (cn_F _ _ _ HC). split; [|apply count_bound]. apply count_le. intros st Hst Hf.
    destruct (shf (reached c base h es) st) eqn:E; try discriminate. pose proof (proj1 (i_M_shf _ _ _ HI st) Hst) as X. rewrite E in X. auto.
  - intros st Hf. destruct (shf (reached c base h es) st) eqn:E; try discriminate. apply fetched_durable; auto.
Qed.

(** ** C19: reads without copying *)

(** A read within one stripe that is not failed does not ask the worker for anything
    and changes nothing but the set of operations in flight: one read operation is
    started, on the image if the stripe is unfetched. *)
Theorem C19_read_does_not_copy : has_image c = true -> 0 < ssc c -> forall (s : state V) q id off len st,
  panic s = false -> 0 < len -> off / ssc c = st -> (off + len - 1) / ssc c = st -> st < nst c -> shf s st <> Failed ->
  fst (step c s (EAdd q id (RRead off len))) =
  set_ops (upd (ops s) (next s)
    (Some (mk_op (OGuest q id) (if released (shf s st) then DBase else DImage) (KRead off len (fun _ => None)))))
    (set_next (S (next s)) s).
Proof.
  intros Him Hs s q id off len st Hp Hl E1 E2 Hst Hf. unfold step. rewrite Hp. cbn [fst]. unfold add_req. cbv zeta. unfold add_read.
  assert (E : stripes_of c off len = [st]).
  { unfold stripes_of, stripe_first, stripe_last. destruct (Nat.eqb_spec (off + len) 0); [lia|]. rewrite E1, E2.
    replace (S st - st) with 1 by lia. reflexivity. }
  rewrite E. cbn [fetch_status]. destruct (Nat.ltb_spec st (nst c)); [|lia]. sred. 
  assert (E3 : (stripe_first c off =? stripe_last c off len) = true).
  { unfold stripe_first, stripe_last. destruct (Nat.eqb_spec (off + len) 0); [lia|]. apply Nat.eqb_eq. congruence. }
  destruct (shf s st) eqn:Ef; try congruence; cbn [released]; try rewrite E3, Him; reflexivity.
Qed.

(** What a read of the image returns is the image's data. *)
Theorem C19_image_data : well_configured c h -> forall es n q id off len got i v,
  ops (reached c base h es) n = Some (mk_op (OGuest q id) DImage (KRead off len got)) ->
  i < len -> got i = Some v -> v = image c (off + i).
Proof.
  intros WC es n q id off len got i v Ho Hi Hg. destruct (refines c base h WC es) as (d & _ & HS).
  destruct (s_guest _ _ _ HS _ _ _ _ _ Ho) as (k' & _ & Km). unfold kmatch in Km. destruct k' as [off' len' got'| |]; try tauto.
  destruct Km as (-> & -> & Km). destruct (Km i Hi) as [[A|[_ A]] _]; congruence.
Qed.

(** If autofetch is off and the guest only reads within stripes (and flushes), no
    stripe is ever fetched and the source is never asked for anything. *)
Theorem C19_never_fetched : well_configured c h -> has_image c = true -> autofetch c = false -> forall es,
  (forall q id r, In (EAdd q id r) es ->
     match r with
     | RRead off len => 0 < len /\ off / ssc c = (off + len - 1) / ssc c
     | RWrite _ _ => False
     | RFlush => True
     end) ->
  forall st, fsts (reached c base h es) st = None /\ forall n, sops (reached c base h es) n = None.
Proof. intros WC Him Ha es He. apply no_copy; auto. Qed.

End Props.

(** ** Non-vacuity: a well-configured device exists for every whole-stripe image *)

Lemma has_flag_source_header b : has_flag FLAG_HAS_SOURCE (if b : bool then FLAG_HAS_SOURCE else 0%N) = b.
Proof. destruct b; reflexivity. Qed.

(** Metadata made by init-metadata (C05) for a raw image whose size is a whole
    number of stripes, on a base device at least as large: the hypothesis of the
    theorems holds. *)
Theorem fresh_device_well_configured {V} : forall (c : cfg V) k,
  0 < ssc c -> 0 < hps c -> src c = k * ssc c -> k <= nst c -> nst c = div_ceil (target c) (ssc c) -> src c <= target c ->
  well_configured c (fun st => if st <? k then FLAG_HAS_SOURCE else 0%N).
Proof.
  intros c k Hs Hh Ek Hk En Ht.
  assert (D : forall st, st < nst c -> st * ssc c < target c).
  { intros st Hst. rewrite En in Hst. apply MetadataProofs.div_ceil_lt; auto. }
  constructor; auto.
  - apply MetadataProofs.div_ceil_le; auto. rewrite Ek. apply Nat.mul_le_mono_r. auto.
  - intros x Hx Hn Hf. rewrite has_flag_source_header in Hf. left. apply Nat.ltb_lt in Hf. rewrite Ek.
    pose proof (Nat.mul_succ_div_gt x (ssc c) ltac:(lia)). assert (ssc c * S (x / ssc c) <= ssc c * k) by (apply Nat.mul_le_mono_l; lia). lia.
  - intros st Hst Hf. destruct (st <? k); [reflexivity|discriminate].
Qed.

(** ** Concrete executions

    A device of 3 stripes of 2 sectors with an image of 2 stripes; the image
    holds 100, 101, ... and the base device 0, 1, ...; written tracking is on. *)
Definition ex_cfg : cfg nat := mk_cfg 2 3 2 6 4 false (fun x => 100 + x) 0 true false false.
Definition ex_base (x : nat) : nat := x.
Definition ex_h (st : nat) : N := if st <? 2 then FLAG_HAS_SOURCE else 0%N.

Example ex_well_configured : well_configured ex_cfg ex_h.
Proof. apply (fresh_device_well_configured ex_cfg 2); cbn; auto with arith. Qed.

(** A write of one sector of stripe 0 waits for the stripe to be fetched and
    marked written ... *)
Definition ex_fetch : list (event nat) :=
  [ EAdd 0 7 (RWrite 1 [55]); EWRecv; EWRecv; EWStartFetch true; EWSrcDone 2 true;
    EApply 3 1; EApply 3 0; EDone 3 true; EDone 4 true; EWTakeFinished;
    EWStartWrite; EMApply 5; EWMetaDone 5 true; EWMetaDone 6 true ].
Definition ex_record : list (event nat) :=
  [ EWStartWrite; EMApply 7; EWMetaDone 7 true; EWMetaDone 8 true; EFront 0 ].
(** ... is executed and flushed, the machine crashes, and both sectors of the
    stripe are read. *)
Definition ex_write : list (event nat) := [ EApply 1 0; EDone 1 true; EAdd 0 8 RFlush; EDone 9 true ].
Definition ex_read : list (event nat) :=
  [ ECrash (fun _ => 0) (fun _ => 0); EAdd 1 3 (RRead 0 4); EWRecv; EWStartFetch true; EWSrcDone 11 true; EApply 12 0; EApply 12 1;
    EDone 12 true; EDone 13 true; EWTakeFinished; EWStartWrite; EMApply 14; EWMetaDone 14 true; EWMetaDone 15 true; EFront 1;
    ESample 10 0; ESample 10 1; ESample 10 2; ESample 10 3; EDone 10 true ].
Definition ex_all : list (event nat) := ex_fetch ++ ex_record ++ ex_write ++ ex_read.

Example C06_nonvacuous : history ex_cfg ex_base ex_h ex_all =
  [ TIssue 1 0 7 (RWrite 1 [55]); TDone 1 0 7 true []; TIssue 9 0 8 RFlush; TDone 9 0 8 true []; TCrash;
    TIssue 10 1 3 (RRead 0 4); TDone 10 1 3 true [Some 100; Some 55; Some 102; Some 103] ].
Proof. vm_compute. reflexivity. Qed.

Example C06_background_nonvacuous :
  background (reached ex_cfg ex_base ex_h ex_fetch) EWStartWrite = true /\
  map (logical ex_cfg (reached ex_cfg ex_base ex_h ex_all)) (seq 0 6) = [Some 100; Some 55; Some 102; Some 103; Some 4; Some 5].
Proof. vm_compute. split; reflexivity. Qed.

(** The crash may also lose an unflushed write. *)
Example C07_nonvacuous :
  let es := ex_fetch ++ ex_record ++ [EApply 1 0; EDone 1 true] in
  logical ex_cfg (reached ex_cfg ex_base ex_h (es ++ [ECrash (fun _ => 0) (fun _ => 0)])) 1 = Some 55 /\
  logical ex_cfg (reached ex_cfg ex_base ex_h (es ++ [ECrash (fun _ => 1) (fun _ => 0)])) 1 = Some 101.
Proof. vm_compute. split; reflexivity. Qed.

Example C08_nonvacuous :
  guest_writing (reached ex_cfg ex_base ex_h (ex_fetch ++ ex_record)) 1 /\
  copying (reached ex_cfg ex_base ex_h (firstn 5 ex_fetch)) 1 /\
  released (shf (reached ex_cfg ex_base ex_h (ex_fetch ++ firstn 3 ex_record)) 0) = false /\
  released (shf (reached ex_cfg ex_base ex_h ((ex_fetch ++ firstn 3 ex_record) ++ [EWMetaDone 8 true])) 0) = true.
Proof.
  split; [|split; [|split; vm_compute; reflexivity]].
  - exists 1, 0, 7, 1, 1, (WData [55]), (fun _ => false). split; [vm_compute; reflexivity|lia].
  - exists 3, 0, DBase, 0, 2, (WBuf 0), (fun _ => false). split; [vm_compute; reflexivity|lia].
Qed.

Example C09_nonvacuous : touches ex_cfg (RWrite 1 [55]) 0 /\
  In (TIssue 1 0 7 (RWrite 1 [55])) (history ex_cfg ex_base ex_h ex_all) /\
  In (TDone 1 0 7 true []) (history ex_cfg ex_base ex_h ex_all).
Proof. split; [exists 0; cbn; auto|]. rewrite C06_nonvacuous. cbn. auto. Qed.

Example C10_nonvacuous :
  acknowledged (reached ex_cfg ex_base ex_h ex_fetch) FLAG_WRITTEN 0 /\
  acknowledged (reached ex_cfg ex_base ex_h (ex_fetch ++ ex_record)) FLAG_FETCHED 0.
Proof. split; [right|left]; vm_compute; auto. Qed.

(** Four failing attempts. *)
Definition ex_fail : list (event nat) :=
  [ EAdd 0 7 (RRead 0 1); EWRecv; EWStartFetch true; EWSrcDone 2 false; EWStartFetch false; EWStartFetch true; EWSrcDone 3 true;
    EDone 4 false; EWStartFetch true; EWSrcDone 5 true; EApply 6 0; EApply 6 1; EDone 6 true ].
Example C12_nonvacuous :
  attempts ex_cfg 0 (init ex_cfg ex_base ex_h) ex_fail 0 = 4 /\
  fsts (reached ex_cfg ex_base ex_h ex_fail) 0 = Some FFlushing /\
  fsts (reached ex_cfg ex_base ex_h (ex_fail ++ [EDone 7 false])) 0 = None /\
  history ex_cfg ex_base ex_h (ex_fail ++ [EDone 7 false; EFront 0; ETakeFinished 0]) =
    [TIssue 1 0 7 (RRead 0 1); TDone 1 0 7 false []] /\
  fsts (reached ex_cfg ex_base ex_h (ex_fail ++ [EDone 7 true])) 0 = Some FFetched.
Proof. vm_compute. repeat split; reflexivity. Qed.

Example C13_nonvacuous :
  fetching (reached ex_cfg ex_base ex_h (firstn 4 ex_fetch)) 0 /\
  fetch_operation (reached ex_cfg ex_base ex_h (firstn 4 ex_fetch)) 0 2 /\
  meta_writing (reached ex_cfg ex_base ex_h (ex_fetch ++ [EWStartWrite])) 7 1 /\
  (forall q id r, In (EAdd q id r) ex_all -> in_bounds ex_cfg r).
Proof.
  split; [left; vm_compute; reflexivity|]. split; [apply FO_source with 0; vm_compute; reflexivity|].
  split; [exists 0, 0, false; vm_compute; reflexivity|].
  intros q id r Hin. cbn in Hin.
  repeat (destruct Hin as [Hin|Hin]; [try discriminate; injection Hin as <- <- <-; cbn; lia|]). destruct Hin.
Qed.

Example C14_nonvacuous :
  mops (reached ex_cfg ex_base ex_h (ex_fetch ++ [EWStartWrite])) 7 = Some (MWrite 0 0 1 false) /\
  mbufs (reached ex_cfg ex_base ex_h (ex_fetch ++ [EWStartWrite])) 1 0 = 7%N.
Proof. vm_compute. split; reflexivity. Qed.

(** Reading sectors 0-3 fetches both stripes; the worker then drops the source. *)
Definition ex_cfg_plain : cfg nat := mk_cfg 2 3 2 6 4 false (fun x => 100 + x) 0 false false true.
Definition ex_autofetch : list (event nat) :=
  let one k st g := [EWAutofetch; EWStartFetch true; EWSrcDone k true; EApply (k+1) 0; EApply (k+1) 1; EDone (k+1) true;
    EDone (k+2) true; EWTakeFinished; EWStartWrite; EMApply (k+3); EWMetaDone (k+3) true; EWMetaDone (k+4) true] in
  one 1 0 0 ++ one 6 1 0 ++ [EWDisconnect].
Example C16_nonvacuous :
  slive (reached ex_cfg_plain ex_base ex_h []) = true /\
  slive (reached ex_cfg_plain ex_base ex_h ex_autofetch) = false.
Proof. vm_compute. split; reflexivity. Qed.
Example C17_nonvacuous :
  cntS (reached ex_cfg_plain ex_base ex_h (firstn 12 ex_autofetch)) = 2 /\
  cntF (reached ex_cfg_plain ex_base ex_h (firstn 12 ex_autofetch)) = 1.
Proof. vm_compute. split; reflexivity. Qed.

Definition ex_cfg_image : cfg nat := mk_cfg 2 3 2 6 4 false (fun x => 100 + x) 0 false true false.
Example C19_nonvacuous : well_configured ex_cfg_image ex_h /\
  history ex_cfg_image ex_base ex_h [EAdd 0 7 (RRead 2 2); ESample 1 0; ESample 1 1; EDone 1 true] =
    [TIssue 1 0 7 (RRead 2 2); TDone 1 0 7 true [Some 102; Some 103]].
Proof. split; [apply (fresh_device_well_configured ex_cfg_image 2); cbn; auto with arith|vm_compute; reflexivity]. Qed.

Print Assumptions C06_lazy_device_is_a_disk.
Print Assumptions C06_background_keeps_contents.
Print Assumptions C07_crash_is_a_disk_crash.
Print Assumptions C07_no_foreign_data.
Print Assumptions C07_flushed_writes_survive.
Print Assumptions C08_write_only_after_fetch.
Print Assumptions C08_released_after_durable_copy.
Print Assumptions C08_no_copy_after_write.
Print Assumptions C09_written_before_write.
Print Assumptions C09_completed_writes_marked.
Print Assumptions C10_flags_survive.
Print Assumptions C11_completions_match.
Print Assumptions C12_at_most_four_attempts.
Print Assumptions C12_given_up_only_after_four.
Print Assumptions C12_fetched_is_reported.
Print Assumptions C12_waiting_request_is_failed.
Print Assumptions C13_at_most_16_fetches.
Print Assumptions C13_fetch_buffers_distinct.
Print Assumptions C13_one_operation_per_stripe.
Print Assumptions C13_at_most_16_metadata_writes.
Print Assumptions C13_metadata_buffers_distinct.
Print Assumptions C13_no_panic.
Print Assumptions C14_one_update_per_sector.
Print Assumptions C14_contents_written.
Print Assumptions C16_dropped_only_when_unneeded.
Print Assumptions C17_counters.
Print Assumptions C19_read_does_not_copy.
Print Assumptions C19_image_data.
Print Assumptions C19_never_fetched.
