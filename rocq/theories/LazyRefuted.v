(** What goes wrong with the lazy device: counterexamples, each an execution of the
    model of LazyModel.v.

    1. A raw image that ends inside a stripe: the rest of that stripe is
       filled with whatever the fetch buffer contained (stripe_source/bdev.rs:31-40
       reads only up to the end of the image, stripe_fetcher.rs:240-259 writes the
       whole stripe).
    2. A failed metadata update: the stripe stays unusable and requests waiting for
       it wait forever (metadata_flusher.rs:130-145 reverts the header but nobody
       asks again: stripe_fetcher.rs:117-119 ignores requests for stripes in the
       Fetched state). *)
From Coq Require Import List Arith NArith Bool Lia ZifyBool ZifyNat.
Import ListNotations.
From Verif Require Import Base BaseFacts DiskSpec TraceSpec LazyState MetadataModel LazyModel LazySpec LazyInv LazyTac LazyInvGuest LazyInvFetch LazyInvMeta LazySim LazyInv2 LazyReach LazyRun LazyProofs LazyProofs2 LazyProps.

(** ** 1. An image that ends inside a stripe *)

(** 17 stripes of 2 sectors, image of 33 sectors.  Sector 33 lies beyond the end of
    the image; the model gives it the value 7 there, and the base device holds 0. *)
Definition pl_cfg : cfg nat := mk_cfg 2 17 508 34 33 false (fun x => if x <? 33 then 100 + x else 7) 0 false false true.
Definition pl_h (st : nat) : N := FLAG_HAS_SOURCE.
Definition pl_base (x : nat) : nat := 0.
Definition pl_fetch (st : nat) : list (event nat) :=
  let k := 1 + 5 * st in
  [EWAutofetch; EWStartFetch true; EWSrcDone k true; EApply (k+1) 0; EApply (k+1) 1; EDone (k+1) true;
   EDone (k+2) true; EWTakeFinished; EWStartWrite; EMApply (k+3); EWMetaDone (k+3) true; EWMetaDone (k+4) true].
Definition pl_run : list (event nat) :=
  flat_map pl_fetch (seq 0 17) ++ [EAdd 0 0 (RRead 33 1); ESample 86 0; EDone 86 true].

(** No guest write was ever issued, yet a guest read of sector 33 returns 101, the
    image's data for sector 1 left in the recycled buffer. *)
Theorem partial_stripe_stale_data : history pl_cfg pl_base pl_h pl_run =
  [TIssue 86 0 0 (RRead 33 1); TDone 86 0 0 true [Some 101]].
Proof. vm_compute. reflexivity. Qed.

(** Without [wc_cover] the device meets the other conditions, and the property
    "no foreign data" of C07 is false. *)
Theorem C07_refuted_without_cover :
  (0 < ssc pl_cfg /\ 0 < hps pl_cfg /\ (forall st, st < nst pl_cfg -> st * ssc pl_cfg < target pl_cfg) /\
   src pl_cfg <= target pl_cfg /\ div_ceil (src pl_cfg) (ssc pl_cfg) <= nst pl_cfg /\
   (forall st, st < nst pl_cfg -> has_flag FLAG_FETCHED (pl_h st) = true -> has_flag FLAG_HAS_SOURCE (pl_h st) = true)) /\
  ~ reads_return_written (target pl_cfg) (initial_contents pl_cfg pl_base pl_h) (history pl_cfg pl_base pl_h pl_run).
Proof.
  split.
  - split; [cbn; lia|]. split; [cbn; lia|]. split; [intros st Hst; cbn in *; lia|]. split; [cbn; lia|]. split; [vm_compute; lia|]. reflexivity.
  - rewrite partial_stripe_stale_data. intros H.
    destruct (H [TIssue 86 0 0 (RRead 33 1)] 86 0 0 [Some 101] [] 33 1 eq_refl (or_introl eq_refl)) as (_ & _ & X).
    destruct (X 0 101 eq_refl) as [E|(m & q & id & r & [E|[]] & C)].
    + vm_compute in E. discriminate.
    + injection E as <- <- <- <-. destruct C.
Qed.

(** ** 2. Metadata errors *)
Section Hang.
Context {V : Type}.
Variable c : cfg V.
Variable base : nat -> V.
Variable h : nat -> N.
Hypothesis WC : well_configured c h.
Notation hs := (hs h).
Let WF := wf_of c h WC.

(** The stripe was copied and flushed but is not recorded, and nothing is under way
    to record it ... *)
Definition unrecorded (st : nat) (s : state V) : Prop :=
  st < nst c /\ fsts s st = Some FFetched /\ shf s st = NotFetched /\ ~ In (st, true) (ffin s) /\
  ~ In (st, SetFetched) (mqueue s) /\ has_flag FLAG_FETCHED (hdrs s st) = false.
(** ... and a request waits for it at the head of queue [q], the stripes before it
    being available. *)
Definition waits (q st : nat) (r : rwreq V) (s : state V) : Prop :=
  (exists rest, chq s q = r :: rest) /\
  exists a b, req_stripes c (rq_req r) = a ++ st :: b /\ forall x, In x a -> x < nst c /\ released (shf s x) = true.

Lemma completed_other st x ok (s : state V) : st <> x ->
  fsts (fetch_completed c st ok s) x = fsts s x /\ shf (fetch_completed c st ok s) x = shf s x /\
  (In (x, true) (ffin (fetch_completed c st ok s)) -> In (x, true) (ffin s)) /\
  mqueue (fetch_completed c st ok s) = mqueue s /\ hdrs (fetch_completed c st ok s) = hdrs s.
Proof.
  intros Hx. rewrite fetch_completed_eq. cbv zeta.
  assert (R : fsts (release_buf st s) = fsts s /\ shf (release_buf st s) = shf s /\ ffin (release_buf st s) = ffin s /\
              mqueue (release_buf st s) = mqueue s /\ hdrs (release_buf st s) = hdrs s).
  { unfold release_buf. destruct (fbuf s st); auto 10. unfold return_fbuf. sred. destruct (_ && _); auto 10. }
  destruct R as (R1 & R2 & R3 & R4 & R5).
  assert (U : forall A (f : nat -> A) v, upd f st v x = f x) by (intros; unfold upd; destruct (Nat.eqb_spec x st); congruence).
  assert (I : forall b, In (x, true) (ffin s ++ [(st, b)]) -> In (x, true) (ffin s)).
  { intros b Hin. apply in_app_iff in Hin. destruct Hin as [Hin|[Hin|[]]]; auto. congruence. }
  destruct ok; sred; rewrite ?U, ?R1, ?R2, ?R3, ?R4, ?R5; eauto 10. destruct (_ <? _); sred; rewrite ?U, ?R1, ?R2, ?R3, ?R4, ?R5; eauto 10.
  destruct (_ <? _); sred; rewrite ?U, ?R1, ?R2, ?R3, ?R4, ?R5; eauto 10.
Qed.

Lemma handle_other st x (s : state V) : fsts s x = Some FFetched ->
  fsts (handle_fetch_request c st s) x = fsts s x /\ shf (handle_fetch_request c st s) = shf s /\
  ffin (handle_fetch_request c st s) = ffin s /\ mqueue (handle_fetch_request c st s) = mqueue s /\ hdrs (handle_fetch_request c st s) = hdrs s.
Proof.
  intros Hf. unfold handle_fetch_request. destruct (_ <? _); auto 10. destruct (released _); auto 10. destruct (fsts s st) eqn:E; auto 10.
  sred. repeat split; auto. unfold upd. destruct (Nat.eqb_spec x st); congruence.
Qed.

Lemma no_fetched_lor hd : has_flag FLAG_FETCHED hd = false -> has_flag FLAG_FETCHED (N.lor hd FLAG_WRITTEN) = false.
Proof.
  unfold has_flag. rewrite !negb_false_iff, !N.eqb_eq. intros H. rewrite N.land_lor_distr_l, H. reflexivity.
Qed.
Lemma no_fetched_ldiff hd m : has_flag FLAG_FETCHED hd = false -> has_flag FLAG_FETCHED (N.ldiff hd m) = false.
Proof.
  unfold has_flag. rewrite !negb_false_iff, !N.eqb_eq. intros H. apply N.bits_inj. intros k. rewrite N.bits_0, N.land_spec, N.ldiff_spec.
  assert (X : N.testbit (N.land hd FLAG_FETCHED) k = false) by (rewrite H; apply N.bits_0). rewrite N.land_spec in X.
  destruct (N.testbit hd k), (N.testbit FLAG_FETCHED k); try discriminate X; cbn; auto. apply andb_false_r.
Qed.

Lemma unrecorded_step s e st : Ok c hs s -> is_crash e = false -> unrecorded st s -> unrecorded st (fst (step c s e)).
Proof.
  intros HO Hc HU. pose proof HU as (U0 & U1 & U2 & U3 & U4 & U5). destruct HO as [HI [d HS] H2]. unfold step.
  assert (F : forall s' : state V, fsts s' st = fsts s st -> shf s' st = shf s st -> (In (st, true) (ffin s') -> In (st, true) (ffin s)) ->
     (In (st, SetFetched) (mqueue s') -> In (st, SetFetched) (mqueue s)) -> hdrs s' st = hdrs s st -> unrecorded st s').
  { intros s' E1 E2 E3 E4 E5. unfold unrecorded. rewrite E1, E2, E5. repeat split; auto. }
  assert (Sm : forall s' : state V, fsts s' = fsts s -> shf s' = shf s -> ffin s' = ffin s -> mqueue s' = mqueue s -> hdrs s' = hdrs s -> unrecorded st s').
  { intros s' E1 E2 E3 E4 E5. apply F; rewrite ?E1, ?E2, ?E3, ?E4, ?E5; auto. }
  assert (W : forall f, unrecorded st (f s) -> unrecorded st (worker f s)) by (intros f Hf; unfold worker; destruct (wdone s); auto).
  assert (FC : forall st' ok (s1 : state V), st' <> st -> fsts s1 = fsts s -> shf s1 = shf s -> ffin s1 = ffin s -> mqueue s1 = mqueue s -> hdrs s1 = hdrs s ->
     unrecorded st (fetch_completed c st' ok s1)).
  { intros st' ok s1 Hne E1 E2 E3 E4 E5. destruct (completed_other st' st ok s1 Hne) as (A & B & C & D & E). apply F; rewrite ?A, ?B, ?D, ?E, ?E1, ?E2, ?E4, ?E5; auto.
    rewrite <- E3. auto. }
  destruct e as [q id r|q|q|n ok|n i|n i|n i v|n| | | |a|n ok| | |n ok| |pb pm]; try discriminate;
    (destruct (panic s) eqn:Hp; [auto|]); cbn [fst].
  - assert (G : guest_frame s (add_req c q id r s)) by (apply gf_add_req; intros m Hm; eapply ops_next; eauto). apply Sm; apply G.
  - assert (G : guest_frame s (process_front c q s)) by (apply gf_process_front; intros r Hr; eapply queue_serials; eauto). apply Sm; apply G.
  - apply Sm; auto.
  - destruct (ops s n) as [[[q id|st'] dv k]|] eqn:Eo.
    + unfold op_done. rewrite Eo. destruct (_ && _); [auto|]. cbn [fst]. destruct ok; [destruct k|]; apply Sm; auto.
    + destruct (op_done_fetch_eq c n ok s st' dv k Eo) as [->| ->]; [auto|].
      destruct (i_F_op _ _ _ HI _ _ _ _ Eo) as [_ Hk].
      assert (Hne : st' <> st).
      { intros ->. rewrite U1 in Hk. destruct k; intuition discriminate. }
      assert (X : let s1 := if ok then complete_medium n k (set_ops (upd (ops s) n None) s) else set_ops (upd (ops s) n None) s in
        fsts s1 = fsts s /\ shf s1 = shf s /\ ffin s1 = ffin s /\ mqueue s1 = mqueue s /\ hdrs s1 = hdrs s).
      { cbv zeta. destruct ok; [destruct k|]; auto 10. }
      cbv zeta in X. set (s1 := if ok then _ else _) in *. clearbody s1. destruct X as (X1 & X2 & X3 & X4 & X5). unfold tgt_done.
      destruct ok; [|apply FC; auto]. destruct (fsts s1 st') as [[| | |]|]; try solve [apply Sm; auto]; [|apply FC; auto].
      apply F; unfold start_flush; sred; rewrite ?X1, ?X2, ?X3, ?X4, ?X5; auto. unfold upd. destruct (Nat.eqb_spec st st'); [congruence|auto].
    + unfold op_done. rewrite Eo. auto.
  - unfold base_apply. destruct (ops s n) as [[o [] [| |]]|]; auto. destruct (write_value _ _ _); auto. destruct (_ && _); auto.
  - unfold read_sample. destruct (ops s n) as [[o dv0 [| |]]|]; auto. destruct (_ && _); auto.
  - unfold scribble. destruct (sops s n) as [[? ?]|]; auto.
  - unfold meta_apply. destruct (mops s n) as [[? ? ? []|]|]; auto.
  - apply W. unfold worker_recv. destruct (mq s) as [|[x|x] l]; auto.
    + destruct (handle_other x st (set_mq l s) U1) as (A & B & C & D & E). apply F; rewrite ?A, ?B, ?C, ?D, ?E; auto.
    + apply F; auto. sred. intros Hin. apply in_app_iff in Hin. destruct Hin as [Hin|[Hin|[]]]; auto. discriminate.
  - auto.
  - apply W. unfold update_autofetch. destruct (autofetch c); auto. destruct (fq s); auto. destruct (fauto s) as [|x l]; auto.
    destruct (handle_other x st (set_fauto l s) U1) as (A & B & C & D & E). apply F; rewrite ?A, ?B, ?C, ?D, ?E; auto.
  - apply W. unfold start_fetch. destruct (fq s) as [|st' q] eqn:Eq; auto. destruct (favail s) as [|b av] eqn:Ea; auto. cbv zeta.
    assert (Hf : fsts s st' = Some FQueued) by (apply (i_F_queue _ _ _ HI); rewrite Eq; now left). assert (Hne : st' <> st) by congruence.
    destruct (source_accepts _ _ _ _); [|apply FC; auto]. apply F; auto. sred. unfold upd. destruct (Nat.eqb_spec st st'); congruence.
  - apply W. unfold src_done. destruct (sops s n) as [[st' b]|] eqn:Es; auto. cbv zeta.
    destruct (i_F_sop _ _ _ HI _ _ _ Es) as [Hf Hb]. assert (Hne : st' <> st) by congruence. destruct ok; sred; rewrite Hb.
    + unfold start_write. cbv zeta. destruct (_ <? _); auto.
    + apply FC; auto.
  - apply W. unfold take_finished_fetches. apply F; auto; sred.
    + intros Hin. destruct Hin.
    + intros Hin. apply in_app_iff in Hin. destruct Hin as [Hin|Hin]; auto. exfalso. apply in_map_iff in Hin. destruct Hin as ([x b] & E & Hin).
      apply filter_In in Hin. destruct Hin as [Hin Hb]. cbn [snd fst] in *. subst b. injection E as ->. auto.
  - apply W. unfold start_meta_write. destruct (mqueue s) as [|[x k] q] eqn:Eq; auto. destruct (mavail s) as [|b av]; auto. cbv zeta.
    destruct (existsb _ _); auto. assert (Q : In (st, SetFetched) q -> In (st, SetFetched) (mqueue s)) by (intros; rewrite Eq; now right).
    rewrite ?Eq in Q, U4. destruct (_ <? _); [|apply F; auto; sred; intros; right; auto].
    match goal with |- context[if has_flag ?f ?g then _ else _] => destruct (has_flag f g) eqn:Eh end; [apply F; auto; sred; intros; right; auto|].
    unfold unrecorded. sred. repeat split; auto; [intros Hq; apply U4; right; auto|]. unfold upd. destruct (Nat.eqb_spec st x) as [->|]; auto.
    destruct k; [exfalso; apply U4; rewrite ?Eq; now left|]. apply no_fetched_lor; auto.
  - apply W.
    assert (G : forall (s1 : state V) x, fsts s1 = fsts s -> shf s1 = shf s -> ffin s1 = ffin s -> mqueue s1 = mqueue s -> hdrs s1 = hdrs s -> mupd s1 = mupd s ->
      unrecorded st (meta_completion c x ok s1)).
    { intros s1 x E1 E2 E3 E4 E5 E6. unfold meta_completion. destruct (mupd s1 x) as [u|] eqn:Eu; [|apply Sm; auto]. destruct ok; [destruct (u_stage u)|].
      - unfold meta_written, return_mbuf. destruct (_ && _); apply Sm; auto.
      - rewrite E6 in Eu. destruct (i_M_upd _ _ _ HI _ _ Eu) as (_ & _ & _ & Hh & _). 
        unfold meta_flushed, set_stripe_header. cbv zeta. sred. destruct (_ <? _); [|apply Sm; auto].
        destruct (Nat.eq_dec x st) as [->|Hne].
        + rewrite Hh, U5. destruct (has_flag FLAG_WRITTEN (hdrs s st)); apply Sm; auto.
        + destruct (has_flag FLAG_FETCHED (u_header u)), (has_flag FLAG_WRITTEN (u_header u)); try destruct (released (shf s1 x)); apply F; sred; rewrite ?E1, ?E2, ?E3, ?E4, ?E5; auto;
          unfold upd; destruct (Nat.eqb_spec st x); congruence.
      - unfold meta_failed, return_mbuf. cbv zeta.
        assert (R : forall y, has_flag FLAG_FETCHED (upd (hdrs s1) x (N.ldiff (hdrs s1 x) y) st) = false).
        { intros y. unfold upd. destruct (Nat.eqb_spec st x) as [->|]; [apply no_fetched_ldiff|]; rewrite E5; auto. }
        destruct (u_stage u); try destruct (_ && _); unfold unrecorded; sred; rewrite ?E1, ?E2, ?E3, ?E4; repeat split; auto. }
    unfold meta_done. destruct (mops s n) as [[? ? ? ?|? ?]|]; [| |auto]; cbv zeta.
    + destruct (_ && _); [auto|]. apply G; destruct ok; auto.
    + apply G; destruct ok; auto.
  - apply W. unfold disconnect. destruct (_ && _); auto.
Qed.

Lemma status_pending (s : state V) a st b : (forall x, In x a -> x < nst c /\ released (shf s x) = true) ->
  st < nst c -> shf s st = NotFetched -> fetch_status c s (a ++ st :: b) = SPending.
Proof.
  intros Ha Hst Hs. induction a as [|x a IH]; cbn [app fetch_status].
  - destruct (Nat.ltb_spec st (nst c)); [|lia]. now rewrite Hs.
  - destruct (Ha x (or_introl eq_refl)) as [A B]. destruct (Nat.ltb_spec x (nst c)); [|lia].
    assert (IH' : fetch_status c s (a ++ st :: b) = SPending) by (apply IH; intros y Hy; apply Ha; now right).
    destruct (shf s x); try discriminate B; auto.
Qed.

Lemma chq_step s e q st r : Ok c hs s -> is_crash e = false -> unrecorded st s -> waits q st r s -> exists rest, chq (fst (step c s e)) q = r :: rest.
Proof.
  intros HO Hc (U0 & U1 & U2 & _) ((rest & Hq) & a & b & Er & Ha).
  unfold step.
  assert (Sm : forall s' : state V, chq s' = chq s -> exists rest, chq s' q = r :: rest) by (intros s' E; rewrite E; eauto).
  assert (W : forall f, chq (f s) = chq s -> chq (worker f s) = chq s) by (intros f Hf; unfold worker; destruct (wdone s); auto).
  assert (FC : forall st' ok (s1 : state V), chq (fetch_completed c st' ok s1) = chq s1).
  { intros st' ok s1. rewrite fetch_completed_eq. cbv zeta.
    assert (R : chq (release_buf st' s1) = chq s1). { unfold release_buf. destruct (fbuf s1 st'); auto. unfold return_fbuf. sred. destruct (_ && _); auto. }
    destruct ok; sred; auto. destruct (_ <? _); auto. destruct (_ <? _); auto. }
  assert (HF : forall st' (s1 : state V), chq (handle_fetch_request c st' s1) = chq s1).
  { intros st' s1. unfold handle_fetch_request. destruct (_ <? _); auto. destruct (released _); auto. destruct (fsts s1 st'); auto. }
  assert (EN : forall q' x (s1 : state V), chq s1 = chq s -> exists rest, chq (enqueue q' x s1) q = r :: rest).
  { intros q' x s1 E. unfold enqueue. sred. unfold upd. rewrite E. destruct (Nat.eqb_spec q q') as [<-|]; eauto. rewrite Hq. cbn [app]. eauto. }
  assert (SF : forall q' l (s1 : state V), chq (fst (start_stripe_fetches c q' l s1)) = chq s1).
  { intros q' l. induction l as [|x l IH]; intros s1; auto. cbn [start_stripe_fetches]. destruct (_ <? _); auto. destruct (_ && _); auto. destruct (wdone s1); auto. rewrite IH. auto. }
  assert (SW : forall l (s1 : state V), chq (fst (start_stripe_set_written c l s1)) = chq s1).
  { intros l. induction l as [|x l IH]; intros s1; auto. cbn [start_stripe_set_written]. destruct (_ <? _); auto. destruct (shw _ _); auto. destruct (wdone s1); auto. rewrite IH. auto. }
  destruct e as [q' id r'|q'|q'|n ok|n i|n i|n i v|n| | | |x|n ok| | |n ok| |pb pm]; try discriminate;
    (destruct (panic s) eqn:Hp; [eauto|]); cbn [fst].
  - unfold add_req. cbv zeta.
    assert (QW : forall n off data (s1 : state V), chq s1 = chq s -> exists rest, chq (queue_write c n q' id off data s1) q = r :: rest).
    { intros n off data s1 E. unfold queue_write. pose proof (SF q' (stripes_of c off (length data)) s1) as A1. destruct (start_stripe_fetches _ _ _ _) as [s2 [| |]]; cbn [fst] in A1.
      - destruct (track c); [|apply EN; congruence]. pose proof (SW (stripes_of c off (length data)) s2) as A2.
        destruct (start_stripe_set_written _ _ _) as [s3 [| |]]; cbn [fst] in A2; [apply EN|apply Sm; unfold fail_req; sred|apply Sm; sred]; congruence.
      - apply Sm. unfold fail_req; sred. congruence.
      - apply Sm. sred. congruence. }
    destruct r' as [off len|off data|].
    + unfold add_read. destruct (fetch_status _ _ _); try (apply Sm; reflexivity). destruct (_ && _); [apply Sm; reflexivity|].
      match goal with |- context[start_stripe_fetches ?a ?b ?cc ?dd] => pose proof (SF b cc dd) as A1; destruct (start_stripe_fetches a b cc dd) as [s2 [| |]] end; cbn [fst] in A1;
        [apply EN|apply Sm; unfold fail_req; sred|apply Sm; sred]; rewrite A1; reflexivity.
    + unfold add_write. destruct (fetch_status _ _ _); try (apply Sm; reflexivity); [apply QW; reflexivity|].
      destruct (track c); [|apply Sm; reflexivity]. destruct (stripes_written _ _ _) as [[]|]; try (apply Sm; reflexivity). apply QW. reflexivity.
    + apply Sm. reflexivity.
  - destruct (Nat.eq_dec q' q) as [->|Hne].
    + pose proof (status_pending s a st b Ha U0 U2) as P. rewrite <- Er in P. unfold process_front. rewrite Hq, P. eauto.
    + unfold process_front. destruct (chq s q') as [|r0 rs] eqn:E0; eauto.
      assert (X : forall s1 : state V, chq s1 = upd (chq s) q' rs -> exists rest, chq s1 q = r :: rest).
      { intros s1 E1. rewrite E1. unfold upd. destruct (Nat.eqb_spec q q'); [congruence|eauto]. }
      destruct (fetch_status _ _ _); eauto. destruct (_ && _); eauto. destruct (stripes_written _ _ _) as [[]|]; eauto.
  - apply Sm. reflexivity.
  - apply Sm. unfold op_done. destruct (ops s n) as [[o dv k]|]; auto. destruct (_ && _); auto. destruct o.
    + cbn [fst]. destruct ok; [destruct k|]; auto.
    + destruct (wdone s); auto. cbn [fst]. unfold tgt_done. destruct ok; [|rewrite FC; auto]. 
      match goal with |- context[match fsts ?a ?b with _ => _ end] => destruct (fsts a b) as [[| | |]|] end; try (destruct k; reflexivity). rewrite FC. destruct k; reflexivity.
  - apply Sm. unfold base_apply. destruct (ops s n) as [[o [] [| |]]|]; auto. destruct (write_value _ _ _); auto. destruct (_ && _); auto.
  - apply Sm. unfold read_sample. destruct (ops s n) as [[o dv0 [| |]]|]; auto. destruct (_ && _); auto.
  - apply Sm. unfold scribble. destruct (sops s n) as [[? ?]|]; auto.
  - apply Sm. unfold meta_apply. destruct (mops s n) as [[? ? ? []|]|]; auto.
  - apply Sm, W. unfold worker_recv. destruct (mq s) as [|[x|x] l]; auto. rewrite HF. auto.
  - apply Sm. reflexivity.
  - apply Sm, W. unfold update_autofetch. destruct (autofetch c); auto. destruct (fq s); auto. destruct (fauto s) as [|x l]; auto. rewrite HF. auto.
  - apply Sm, W. unfold start_fetch. destruct (fq s) as [|st' qq] eqn:Eq; auto. destruct (favail s) as [|bb av] eqn:Ea; auto. cbv zeta.
    destruct (source_accepts _ _ _ _); auto. rewrite FC. auto.
  - apply Sm, W. unfold src_done. destruct (sops s n) as [[st' bb]|] eqn:Es; auto. cbv zeta. destruct ok; sred; (destruct (fbuf s st'); auto).
    + unfold start_write. cbv zeta. destruct (_ <? _); auto.
    + rewrite FC. auto.
  - apply Sm, W. reflexivity.
  - apply Sm, W. unfold start_meta_write. destruct (mqueue s) as [|[x k] qq] eqn:Eq; auto. destruct (mavail s) as [|bb av]; auto. cbv zeta.
    destruct (existsb _ _); auto. destruct (_ <? _); auto. destruct (has_flag _ _); auto.
  - apply Sm, W.
    assert (G : forall (s1 : state V) x, chq s1 = chq s -> chq (meta_completion c x ok s1) = chq s).
    { intros s1 x E1. unfold meta_completion. destruct (mupd s1 x) as [u|] eqn:Eu; auto. destruct ok; [destruct (u_stage u)|].
      - unfold meta_written, return_mbuf. destruct (_ && _); auto.
      - unfold meta_flushed, set_stripe_header. cbv zeta. sred. destruct (_ <? _); auto.
        destruct (has_flag FLAG_FETCHED _), (has_flag FLAG_WRITTEN _); try destruct (released _); auto.
      - unfold meta_failed, return_mbuf. cbv zeta. destruct (u_stage u); try destruct (_ && _); auto. }
    unfold meta_done. destruct (mops s n) as [[? ? ? ?|? ?]|]; auto; cbv zeta.
    + destruct (_ && _); auto. apply G; destruct ok; auto.
    + apply G; destruct ok; auto.
  - apply Sm, W. unfold disconnect. destruct (_ && _); auto.
Qed.

Lemma stuck_step s e q st r : Ok c hs s -> is_crash e = false -> unrecorded st s -> waits q st r s ->
  unrecorded st (fst (step c s e)) /\ waits q st r (fst (step c s e)) /\
  forall q' id ok d, ~ In (TDone (rq_serial r) q' id ok d) (snd (step c s e)).
Proof.
  intros HO Hc HU HW. split; [apply unrecorded_step; auto|]. split.
  - split; [eapply chq_step; eauto|]. destruct HW as (_ & a & b & Er & Ha). exists a, b. split; auto.
    intros x Hx. destruct (Ha x Hx) as [A B]. split; auto. apply (mo_rel _ _ (mono_step c hs s e HO)). auto.
  - intros q' id ok d0 Hin. destruct HW as ((rest & Hq) & _). destruct HO as [HI [d HS] _].
    assert (Hr : In r (chq s q)) by (rewrite Hq; now left). destruct (queue_serials c s d q r HS Hr) as [_ Hn].
    unfold step in Hin. destruct e; try discriminate Hc; destruct (panic s); cbn [snd] in Hin; try (now destruct Hin).
    + unfold take_finished in Hin. cbn [snd] in Hin. apply in_map_iff in Hin. destruct Hin as ([n id'] & E & Hin). injection E as E1 <- <- <- <-. cbn [fst snd] in *.
      destruct (s_fin _ _ _ HS _ _ _ Hin) as (k & Ek). destruct (s_queue _ _ _ HS _ _ Hr) as (k' & _ & Ek'). rewrite E1 in Ek. rewrite Ek in Ek'. injection Ek' as -> _ _.
      destruct (s_nodup _ _ _ HS q) as [Nd _]. unfold serials in Nd. rewrite Hq in Nd. cbn [map app] in Nd. apply NoDup_cons_iff in Nd. apply (proj1 Nd).
      apply in_app_iff. right. apply in_map_iff. exists (n, id'). auto.
    + unfold op_done in Hin. destruct (ops s n) as [[o dv k]|] eqn:Eo; [|destruct Hin]. destruct (_ && _); [destruct Hin|]. destruct o as [q2 id2|st2].
      * destruct Hin as [Hin|[]]. injection Hin as E _ _ _ _. congruence.
      * destruct (wdone s); destruct Hin.
Qed.

(** A request that waits for an unrecorded stripe is never completed, whatever
    happens: no event other than a crash and restart ends the wait. *)
Theorem C18_refuted_waits_forever : forall es1 es2 q st r,
  unrecorded st (reached c base h es1) -> waits q st r (reached c base h es1) ->
  (forall e, In e es2 -> is_crash e = false) ->
  waits q st r (reached c base h (es1 ++ es2)) /\
  forall q' id ok d, ~ In (TDone (rq_serial r) q' id ok d) (snd (run c (reached c base h es1) es2)).
Proof.
  intros es1 es2 q st r HU HW. rewrite reached_app. pose proof (ok_reached c base h WC es1) as HO. set (s := reached c base h es1) in *. clearbody s.
  revert s HO HU HW. induction es2 as [|e es IH]; intros s HO HU HW He; [split; [exact HW|intros ? ? ? ? []]|].
  destruct (stuck_step s e q st r HO (He e (or_introl eq_refl)) HU HW) as (A & B & C). rewrite run_cons.
  destruct (IH (fst (step c s e))) as [D E]; auto; [apply ok_step; auto|intros e' He'; apply He; now right|]. split; auto.
  intros q' id ok d Hin. cbn [run] in Hin. destruct (step c s e) as [s1 t1]. cbn [snd fst] in *. destruct (run c s1 es) as [s2 t2]. cbn [snd fst] in *.
  apply in_app_iff in Hin. destruct Hin as [Hin|Hin]; [eapply C|eapply E]; eauto.
Qed.

End Hang.

(** Such a state is reachable: one metadata write error suffices. *)
Definition hang_run : list (event nat) :=
  [ EAdd 0 7 (RRead 0 1); EWRecv; EWStartFetch true; EWSrcDone 2 true; EApply 3 1; EApply 3 0; EDone 3 true; EDone 4 true;
    EWTakeFinished; EWStartWrite; EWMetaDone 5 false ].
Theorem C18_hang_reachable :
  unrecorded ex_cfg 0 (reached ex_cfg ex_base ex_h hang_run) /\
  waits ex_cfg 0 0 (mk_rwreq 1 7 (RRead 0 1)) (reached ex_cfg ex_base ex_h hang_run).
Proof.
  split.
  - vm_compute. repeat split; auto; intros []; discriminate || auto.
  - split; [exists []; vm_compute; reflexivity|]. exists [], []. split; [vm_compute; reflexivity|]. intros x [].
Qed.

Print Assumptions C07_refuted_without_cover.
Print Assumptions C18_refuted_waits_forever.
Print Assumptions C18_hang_reachable.
