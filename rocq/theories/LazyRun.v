(** Lemmas along runs of the lazy device: reachable states, monotonicity of the
    stripe states, absence of panics. *)
From Coq Require Import List Arith NArith Bool Lia ZifyBool ZifyNat.
Import ListNotations.
From Verif Require Import Base BaseFacts DiskSpec LazyState MetadataModel LazyModel LazyInv LazyTac LazyInvGuest LazyInvFetch LazyInvMeta LazySim LazyInv2 LazyReach.

Lemma run_app {V} (c : cfg V) es1 : forall es2 s,
  run c s (es1 ++ es2) = (fst (run c (fst (run c s es1)) es2), snd (run c s es1) ++ snd (run c (fst (run c s es1)) es2)).
Proof.
  induction es1 as [|e es1 IH]; intros es2 s; cbn [app run].
  - cbn [fst snd app]. now destruct (run c s es2).
  - destruct (step c s e) as [s1 t1]. rewrite (IH es2 s1). destruct (run c s1 es1) as [s2 t2]. cbn [fst snd]. now rewrite app_assoc.
Qed.

Section Run.
Context {V : Type}.
Variable c : cfg V.
Variable hsrc : nat -> bool.
Hypothesis WF : wf c.
Notation Inv := (Inv c hsrc).
Notation Sim := (Sim c).
Notation Inv2 := (Inv2 c hsrc).

Record Ok (s : state V) : Prop := { k_inv : Inv s; k_sim : exists d, Sim s d; k_inv2 : Inv2 s }.

Lemma ok_step s e : Ok s -> Ok (fst (step c s e)).
Proof.
  intros [A [d B] C]. split.
  - eapply inv_step; eauto.
  - destruct (sim_step c hsrc WF s d e A B) as (d' & _ & X). eauto.
  - eapply inv2_step; eauto.
Qed.

Lemma run_cons s e es : fst (run c s (e :: es)) = fst (run c (fst (step c s e)) es).
Proof. cbn [run]. destruct (step c s e) as [s1 t1]. destruct (run c s1 es) as [s2 t2] eqn:E. cbn [fst]. now rewrite E. Qed.

Lemma ok_run es : forall s, Ok s -> Ok (fst (run c s es)).
Proof.
  induction es as [|e es IH]; intros s H; auto. rewrite run_cons. apply IH. apply ok_step; auto.
Qed.

Lemma ok_init base h : (forall st, st < nst c -> has_flag FLAG_HAS_SOURCE (h st) = hsrc st) ->
  (forall st, st < nst c -> has_flag FLAG_FETCHED (h st) = true -> hsrc st = true) ->
  (forall x, x < target c -> x / ssc c < nst c -> hsrc (x / ssc c) = true -> has_flag FLAG_FETCHED (h (x / ssc c)) = false ->
     x < src c \/ (full_stripes c = true /\ has_image c = false)) ->
  Ok (init c base h).
Proof.
  intros H1 H2 H3. split; [apply inv_init; auto| |apply inv2_init; auto].
  eexists. apply sim_init.
Qed.

(** ** Stripe states only advance *)
Record Mono (s s' : state V) : Prop := {
  mo_rel : forall st, released (shf s st) = true -> released (shf s' st) = true;
  mo_fet : forall st, shf s st = Fetched -> shf s' st = Fetched;
  mo_shw : forall st, shw s st = true -> shw s' st = true;
  mo_next : next s <= next s'
}.

Lemma mono_refl s : Mono s s.
Proof. constructor; auto. Qed.
Lemma mono_trans s1 s2 s3 : Mono s1 s2 -> Mono s2 s3 -> Mono s1 s3.
Proof. intros [A B C D] [A' B' C' D']. constructor; auto. lia. Qed.
Lemma mono_same (s s' : state V) : shf s' = shf s -> shw s' = shw s -> next s <= next s' -> Mono s s'.
Proof. intros H1 H2 H3. constructor; rewrite ?H1, ?H2; auto. Qed.

Lemma release_next st (s : state V) : next (release_buf st s) = next s.
Proof. unfold release_buf. destruct (fbuf s st); auto. unfold return_fbuf. sred. destruct (_ && _); auto. Qed.

Lemma mono_fetch_completed st ok s : released (shf s st) = false -> Mono s (fetch_completed c st ok s).
Proof.
  intros Hr. rewrite fetch_completed_eq. cbv zeta. destruct (release_buf_frame st s) as (_ & _ & R1 & _ & R2). pose proof (release_next st s) as R3.
  set (s1 := release_buf st s) in *. clearbody s1. destruct ok; [apply mono_same; auto; sred; lia|].
  destruct (_ <? _); [apply mono_same; auto; sred; lia|]. destruct (_ <? _); [|apply mono_same; auto; sred; lia].
  constructor; sred; rewrite ?R1, ?R2, ?R3; auto; intros x Hx; unfold upd; destruct (Nat.eqb_spec x st); auto; subst; try congruence.
  rewrite Hx in Hr. discriminate.
Qed.

Ltac nx := unfold enqueue, fail_req, issue; sred; auto.
Lemma add_next q id r s : next s <= next (add_req c q id r s).
Proof.
  assert (Hq : forall off data, next s <= next (queue_write c (next s) q id off data (set_next (S (next s)) s))).
  { intros off data. unfold queue_write.
    destruct (ssf_spec c q (stripes_of c off (length data)) (set_next (S (next s)) s)) as (cr & l & E & _).
    destruct (start_stripe_fetches _ _ _ _) as [s1 r1]. cbn [fst] in E. subst s1.
    destruct r1; nx. destruct (track c); nx.
    destruct (ssw_spec c (stripes_of c off (length data)) (set_chreq cr (set_mq (mq (set_next (S (next s)) s) ++ l) (set_next (S (next s)) s)))) as (l2 & E2 & _).
    destruct (start_stripe_set_written _ _ _) as [s2 r2]. cbn [fst] in E2. subst s2. destruct r2; nx. }
  unfold add_req. destruct r as [off len|off data|].
  - unfold add_read. destruct (fetch_status _ _ _); nx.
    destruct (_ && _); [nx|].
    destruct (ssf_spec c q (stripes_of c off len) (set_next (S (next s)) s)) as (cr & l & E & _).
    destruct (start_stripe_fetches _ _ _ _) as [s1 r1]. cbn [fst] in E. subst s1. destruct r1; nx.
  - unfold add_write. destruct (fetch_status _ _ _); nx.
    destruct (track c); [|nx]. destruct (stripes_written _ _ _) as [[|]|]; nx.
  - nx.
Qed.

Lemma mono_gf s s' : guest_frame s s' -> next s <= next s' -> Mono s s'.
Proof. intros G H. apply mono_same; auto; apply G. Qed.

Lemma mono_meta_completion st ok s : Mono s (meta_completion c st ok s).
Proof.
  unfold meta_completion. destruct (mupd s st) as [u|]; [|apply mono_refl]. destruct ok.
  - destruct (u_stage u).
    + unfold meta_written, return_mbuf. destruct (_ && _); apply mono_same; auto; sred; lia.
    + unfold meta_flushed, set_stripe_header. cbv zeta. sred. destruct (_ <? _); [|apply mono_same; auto].
      destruct (has_flag FLAG_FETCHED _), (has_flag FLAG_WRITTEN _); try destruct (released _); constructor; sred; auto;
        intros x Hx; unfold upd; destruct (Nat.eqb_spec x st); auto.
  - unfold meta_failed, return_mbuf. cbv zeta. destruct (u_stage u); try destruct (_ && _); apply mono_same; auto; sred; lia.
Qed.

Lemma mono_crash pb pm s : Inv s -> Mono s (crash c pb pm s).
Proof.
  intros HI. constructor.
  - intros st. eapply crash_released; eauto.
  - intros st Hf. destruct (Nat.ltb_spec st (nst c)) as [Hst|Hst].
    2:{ rewrite (proj2 (i_M_shf _ _ _ HI st) Hst) in Hf. discriminate. }
    unfold crash. rewrite boot_shf by auto. destruct (loaded_crash _ _ pm s st HI) as (e & Hi & ->).
    unfold initial_fetch_state. rewrite (proj2 (i_M_src _ _ _ HI st Hst) e Hi). pose proof (proj1 (i_M_shf _ _ _ HI st) Hst) as Y.
    rewrite Hf in Y. rewrite Y. rewrite (proj2 (i_M_ackF _ _ _ HI st Hf) e Hi). auto.
  - intros st Hf. destruct (i_M_ackW _ _ _ HI st Hf) as (Hst & _ & H). unfold crash, boot. cbv zeta. sred.
    destruct (Nat.ltb_spec st (nst c)); [|lia]. destruct (loaded_crash _ _ pm s st HI) as (e & Hi & ->). cbn [andb]. auto.
  - auto.
Qed.

Lemma mono_step s e : Ok s -> Mono s (fst (step c s e)).
Proof.
  intros [HI [d HS] H2]. unfold step.
  assert (W : forall f, Mono s (f s) -> Mono s (worker f s)) by (intros f Hf; unfold worker; destruct (wdone s); auto using mono_refl).
  assert (HF : forall s' st, shf s' = shf s -> shw s' = shw s -> next s' = next s -> Mono s (handle_fetch_request c st s')).
  { intros s' st E1 E2 E3. unfold handle_fetch_request. destruct (_ <? _); [|apply mono_same; auto; sred; lia].
    destruct (released _); [apply mono_same; auto; lia|]. destruct (fsts s' st); apply mono_same; auto; sred; lia. }
  destruct e as [q id r|q|q|n ok|n i|n i|n i v|n| | | |a|n ok| | |n ok| |pb pm]; try (destruct (panic s) eqn:Hp; [apply mono_refl|]); cbn [fst].
  - apply mono_gf; [apply gf_add_req; intros m Hm; eapply ops_next; eauto|apply add_next].
  - apply mono_gf; [apply gf_process_front; intros r Hr; eapply queue_serials; eauto|].
    unfold process_front. destruct (chq s q) as [|r l]; auto. destruct (fetch_status _ _ _); sred; auto.
    destruct (_ && _); sred; auto. destruct (stripes_written _ _ _) as [[|]|]; sred; auto.
  - apply mono_gf; [apply gf_take_finished|auto].
  - destruct (ops s n) as [[[q id|st] dv k]|] eqn:Eo.
    + unfold op_done. rewrite Eo. destruct (_ && _); [apply mono_refl|]. cbn [fst]. destruct ok; [destruct k|]; apply mono_same; auto.
    + destruct (op_done_fetch_eq c n ok s st dv k Eo) as [->| ->]; [apply mono_refl|].
      destruct (fetch_op_unrel c hsrc _ _ _ _ _ HI Eo) as [Hst Hr].
      assert (X : Mono s (if ok then complete_medium n k (set_ops (upd (ops s) n None) s) else set_ops (upd (ops s) n None) s) /\
        released (shf (if ok then complete_medium n k (set_ops (upd (ops s) n None) s) else set_ops (upd (ops s) n None) s) st) = false).
      { destruct ok; [destruct k|]; split; auto; apply mono_same; auto. }
      set (s1 := if ok then _ else _) in *. clearbody s1. destruct X as [H1 H3]. eapply mono_trans; [apply H1|].
      unfold tgt_done. destruct ok; [|apply mono_fetch_completed; auto].
      destruct (fsts s1 st) as [[| | |]|]; auto using mono_refl; [|apply mono_fetch_completed; auto]. apply mono_same; auto. unfold start_flush. sred. lia.
    + unfold op_done. rewrite Eo. apply mono_refl.
  - unfold base_apply. destruct (ops s n) as [[o [] [| |]]|]; auto using mono_refl. destruct (write_value _ _ _); auto using mono_refl. destruct (_ && _); apply mono_same; auto.
  - unfold read_sample. destruct (ops s n) as [[o dv0 [| |]]|]; auto using mono_refl. destruct (_ && _); apply mono_same; auto.
  - unfold scribble. destruct (sops s n) as [[? ?]|]; apply mono_same; auto.
  - unfold meta_apply. destruct (mops s n) as [[? ? ? []|]|]; apply mono_same; auto.
  - apply W. unfold worker_recv. destruct (mq s) as [|[st|st] l]; [apply mono_refl|apply HF; auto|apply mono_same; auto].
  - apply mono_same; auto.
  - apply W. unfold update_autofetch. destruct (autofetch c); auto using mono_refl. destruct (fq s); auto using mono_refl. destruct (fauto s); auto using mono_refl.
  - apply W. unfold start_fetch. destruct (fq s) as [|st q] eqn:Eq; auto using mono_refl. destruct (favail s) as [|b av] eqn:Ea; auto using mono_refl. cbv zeta.
    destruct (queued_unrel c hsrc s st q HI Eq) as [Hst Hr].
    destruct (source_accepts _ _ _ _); [apply mono_same; auto; sred; lia|]. eapply mono_trans; [|apply mono_fetch_completed; exact Hr]. apply mono_same; auto.
  - apply W. unfold src_done. destruct (sops s n) as [[st b]|] eqn:Es; auto using mono_refl. cbv zeta.
    destruct (i_F_sop _ _ _ HI _ _ _ Es) as [Hf Hb].
    assert (Hr : released (shf s st) = false) by (apply (i_F_unrel _ _ _ HI _ _ Hf); discriminate).
    destruct ok; sred; (destruct (fbuf s st); [|apply mono_same; auto]).
    + unfold start_write. cbv zeta. destruct (_ <? _); apply mono_same; auto; sred; lia.
    + eapply mono_trans; [|apply mono_fetch_completed; exact Hr]. apply mono_same; auto.
  - apply W. apply mono_same; auto.
  - apply W. unfold start_meta_write. destruct (mqueue s) as [|[st k] q]; auto using mono_refl. destruct (mavail s); auto using mono_refl. cbv zeta.
    destruct (existsb _ _); auto using mono_refl. destruct (_ <? _); [|apply mono_same; auto]. destruct (has_flag _ _); apply mono_same; auto; sred; lia.
  - apply W. unfold meta_done. destruct (mops s n) as [[st g b ap|st snap]|]; auto using mono_refl; cbv zeta.
    + destruct (_ && _); auto using mono_refl. eapply mono_trans; [|apply mono_meta_completion]. destruct ok; apply mono_same; auto.
    + eapply mono_trans; [|apply mono_meta_completion]. destruct ok; apply mono_same; auto.
  - apply W. unfold disconnect. destruct (_ && _); apply mono_same; auto.
  - apply mono_crash; auto.
Qed.

Lemma mono_run es : forall s, Ok s -> Mono s (fst (run c s es)).
Proof.
  induction es as [|e es IH]; intros s H; [apply mono_refl|]. rewrite run_cons.
  eapply mono_trans; [apply mono_step; auto|apply IH, ok_step; auto].
Qed.

(** ** No panics *)
Definition req_fits (r : req V) : Prop :=
  match r with
  | RRead off len => 0 < off + len /\ off + len <= nst c * ssc c
  | RWrite off data => 0 < off + length data /\ off + length data <= nst c * ssc c
  | RFlush => True
  end.

Lemma fits_stripes off len : 0 < off + len -> off + len <= nst c * ssc c -> forall st, In st (stripes_of c off len) -> st < nst c.
Proof.
  intros H1 H2 st Hst. unfold stripes_of in Hst. apply in_seq in Hst. unfold stripe_last, stripe_first in Hst.
  destruct (Nat.eqb_spec (off + len) 0); [lia|]. pose proof (wf_ssc _ WF) as W.
  assert ((off + len - 1) / ssc c < nst c) by (apply Nat.div_lt_upper_bound; lia).
  lia.
Qed.

Definition QOK (s : state V) : Prop := forall q r, In r (chq s q) -> req_fits (rq_req r) /\ rq_req r <> RFlush.

Lemma status_no_panic s sts : (forall st, In st sts -> st < nst c) -> fetch_status c s sts <> SPanic.
Proof. clear hsrc WF.
  induction sts as [|st sts IH]; intros H; cbn [fetch_status]; [discriminate|].
  destruct (Nat.ltb_spec st (nst c)); [|pose proof (H st (or_introl eq_refl)); lia].
  destruct (shf s st); try discriminate; apply IH; intros; apply H; now right.
Qed.
Lemma written_no_panic (s : state V) sts : (forall st, In st sts -> st < nst c) -> stripes_written c s sts <> None.
Proof. clear hsrc WF.
  induction sts as [|st sts IH]; intros H; cbn [stripes_written]; [discriminate|].
  destruct (Nat.ltb_spec st (nst c)); [|pose proof (H st (or_introl eq_refl)); lia].
  destruct (shw s st); try discriminate; apply IH; intros; apply H; now right.
Qed.
Lemma ssf_no_panic q sts : forall s, (forall st, In st sts -> st < nst c) -> snd (start_stripe_fetches c q sts s) <> SendPanic.
Proof. clear hsrc WF.
  induction sts as [|st sts IH]; intros s H; cbn [start_stripe_fetches]; [discriminate|].
  destruct (Nat.ltb_spec st (nst c)); [|pose proof (H st (or_introl eq_refl)); lia].
  destruct (_ && _); [destruct (wdone s); [discriminate|]|]; apply IH; intros; apply H; now right.
Qed.
Lemma ssw_no_panic sts : forall (s : state V), (forall st, In st sts -> st < nst c) -> snd (start_stripe_set_written c sts s) <> SendPanic.
Proof. clear hsrc WF.
  induction sts as [|st sts IH]; intros s H; cbn [start_stripe_set_written]; [discriminate|].
  destruct (Nat.ltb_spec st (nst c)); [|pose proof (H st (or_introl eq_refl)); lia].
  destruct (shw s st); [apply IH; intros; apply H; now right|]. destruct (wdone s); [discriminate|]. apply IH; intros; apply H; now right.
Qed.

(** A guest step keeps the panic flag clear and the queues in range. *)
Definition fine (s : state V) : Prop := panic s = false /\ QOK s.

Lemma fine_enqueue q r s : fine s -> req_fits (rq_req r) -> rq_req r <> RFlush -> fine (enqueue q r s).
Proof.
  intros [A B] H H'. split; auto. intros q' r'. unfold enqueue. sred. unfold upd. destruct (Nat.eqb_spec q' q).
  - subst. rewrite in_app_iff. intros [X|[X|[]]]; [eapply B; eauto|subst; auto].
  - apply B.
Qed.

Lemma fine_add q id r s : fine s -> req_fits r -> fine (add_req c q id r s).
Proof.
  intros [A B] H. set (n := next s).
  assert (F0 : fine (set_next (S n) s)) by (split; auto).
  assert (FI : forall dv r0, fine (issue n q id dv r0 (set_next (S n) s))) by (intros; split; auto).
  assert (FF : fine (fail_req q n id (set_next (S n) s))) by (split; auto).
  assert (FM : forall cr m, fine (set_chreq cr (set_mq m (set_next (S n) s)))) by (intros; split; auto).
  unfold add_req. fold n. cbv zeta. destruct r as [off len|off data|].
  - cbn in H. pose proof (fits_stripes off len (proj1 H) (proj2 H)) as Hs. unfold add_read. 
    destruct (fetch_status _ _ _) eqn:Ef; auto; [|exfalso; eapply status_no_panic; eauto].
    destruct (_ && _); auto.
    destruct (ssf_spec c q (stripes_of c off len) (set_next (S n) s)) as (cr & l & E & _).
    pose proof (ssf_no_panic q _ (set_next (S n) s) Hs) as NP.
    destruct (start_stripe_fetches _ _ _ _) as [s1 r1]. cbn [fst snd] in *. subst s1. destruct r1; [|split; auto|congruence].
    apply fine_enqueue; auto. discriminate.
  - cbn in H. pose proof (fits_stripes off (length data) (proj1 H) (proj2 H)) as Hs.
    assert (Hq : fine (queue_write c n q id off data (set_next (S n) s))).
    { unfold queue_write.
      destruct (ssf_spec c q (stripes_of c off (length data)) (set_next (S n) s)) as (cr & l & E & _).
      pose proof (ssf_no_panic q _ (set_next (S n) s) Hs) as NP.
      destruct (start_stripe_fetches _ _ _ _) as [s1 r1]. cbn [fst snd] in *. subst s1. destruct r1; [|split; auto|congruence].
      destruct (track c); [|apply fine_enqueue; auto; discriminate].
      set (s1 := set_chreq _ _). destruct (ssw_spec c (stripes_of c off (length data)) s1) as (l2 & E2 & _).
      pose proof (ssw_no_panic _ s1 Hs) as NP2.
      destruct (start_stripe_set_written _ _ _) as [s2 r2]. cbn [fst snd] in *. subst s2. destruct r2; [|split; auto|congruence].
      apply fine_enqueue; [split; auto|auto|discriminate]. }
    unfold add_write. destruct (fetch_status _ _ _) eqn:Ef; auto; [|exfalso; eapply status_no_panic; eauto].
    destruct (track c); auto. destruct (stripes_written _ _ _) as [[|]|] eqn:Ew; auto. exfalso; eapply written_no_panic; eauto.
  - auto.
Qed.

Lemma fine_front q s : fine s -> fine (process_front c q s).
Proof.
  intros [A B]. unfold process_front. destruct (chq s q) as [|r l] eqn:Eq; [split; auto|].
  assert (Hr : req_fits (rq_req r) /\ rq_req r <> RFlush) by (apply (B q); rewrite Eq; now left).
  assert (Hs : forall st, In st (req_stripes c (rq_req r)) -> st < nst c).
  { destruct Hr as [H1 H2]. destruct (rq_req r); try congruence; cbn in H1; unfold req_stripes; cbn [req_extent fst snd]; apply fits_stripes; tauto. }
  assert (Hq : QOK (set_chq (upd (chq s) q l) s)).
  { intros q' r'. sred. unfold upd. destruct (Nat.eqb_spec q' q); [|apply B]. intros X. apply (B q). rewrite Eq. now right. }
  destruct (fetch_status _ _ _) eqn:Ef; [split; auto| |split; auto|exfalso; eapply status_no_panic; eauto].
  destruct (_ && _); [|split; auto]. destruct (stripes_written _ _ _) as [[|]|] eqn:Ew; [split; auto..|exfalso; eapply written_no_panic; eauto].
Qed.

Lemma panic_release st (s : state V) : panic s = false -> (forall b, fbuf s st = Some b -> fuse s b = true /\ b < MAX_CONCURRENT_FETCHES) ->
  panic (release_buf st s) = false.
Proof.
  intros H Hb. unfold release_buf. destruct (fbuf s st) as [b|]; auto. destruct (Hb b eq_refl) as [X Y]. unfold return_fbuf. sred. rewrite X.
  destruct (Nat.ltb_spec b MAX_CONCURRENT_FETCHES); [auto|lia].
Qed.

Lemma panic_fetch_completed st ok s : panic s = false -> (forall b, fbuf s st = Some b -> fuse s b = true /\ b < MAX_CONCURRENT_FETCHES) ->
  st < nst c -> panic (fetch_completed c st ok s) = false.
Proof.
  intros H Hb Hst. rewrite fetch_completed_eq. cbv zeta. pose proof (panic_release st s H Hb) as X.
  destruct ok; auto. destruct (_ <? _); auto. destruct (Nat.ltb_spec st (nst c)); [auto|lia].
Qed.

Lemma panic_handle st s : panic s = false -> st < nst c -> panic (handle_fetch_request c st s) = false.
Proof.
  intros H Hst. unfold handle_fetch_request. destruct (Nat.ltb_spec st (nst c)); [|lia]. destruct (released _); auto. destruct (fsts s st); auto.
Qed.

Lemma chq_fetch_completed st ok (s : state V) : chq (fetch_completed c st ok s) = chq s.
Proof.
  rewrite fetch_completed_eq. cbv zeta. assert (E : chq (release_buf st s) = chq s).
  { unfold release_buf. destruct (fbuf s st); auto. unfold return_fbuf. sred. destruct (_ && _); auto. }
  destruct ok; auto. destruct (_ <? _); auto. destruct (_ <? _); auto.
Qed.

Lemma fine_chq (s s' : state V) : fine s -> chq s' = chq s -> panic s' = false -> fine s'.
Proof. intros [A B] H1 H2. split; auto. intros q r. rewrite H1. apply B. Qed.

Lemma fine_step s e : Ok s -> fine s -> (forall q id r, e = EAdd q id r -> req_fits r) -> fine (fst (step c s e)).
Proof.
  intros [HI [d HS] _] F He. pose proof F as [Fp Fq]. unfold step.
  assert (W : forall f, fine (f s) -> fine (worker f s)) by (intros f Hf; unfold worker; destruct (wdone s); auto).
  assert (FB : forall s' : state V, fbuf s' = fbuf s -> fuse s' = fuse s -> forall st b, fbuf s' st = Some b -> fuse s' b = true /\ b < MAX_CONCURRENT_FETCHES).
  { intros s' E1 E2 st b. rewrite E1, E2. intros X. apply (i_F_buf _ _ _ HI _ _ X). }
  destruct e as [q id r|q|q|n ok|n i|n i|n i v|n| | | |a|n ok| | |n ok| |pb pm]; try rewrite Fp; cbn [fst].
  - apply fine_add; auto. eapply He; eauto.
  - apply fine_front; auto.
  - split; auto.
  - destruct (ops s n) as [[[q id|st] dv k]|] eqn:Eo.
    + unfold op_done. rewrite Eo. destruct (_ && _); auto. cbn [fst]. destruct ok; [destruct k|]; split; auto.
    + destruct (op_done_fetch_eq c n ok s st dv k Eo) as [->| ->]; auto.
      destruct (fetch_op_unrel c hsrc _ _ _ _ _ HI Eo) as [Hst Hr].
      assert (X : fine (if ok then complete_medium n k (set_ops (upd (ops s) n None) s) else set_ops (upd (ops s) n None) s) /\
        fbuf (if ok then complete_medium n k (set_ops (upd (ops s) n None) s) else set_ops (upd (ops s) n None) s) = fbuf s /\
        fuse (if ok then complete_medium n k (set_ops (upd (ops s) n None) s) else set_ops (upd (ops s) n None) s) = fuse s).
      { destruct ok; [destruct k|]; (split; [split; assumption|split; reflexivity]). }
      set (s1 := if ok then _ else _) in *. clearbody s1. destruct X as (X & E1 & E2).
      assert (FC : forall b, fine (fetch_completed c st b s1)).
      { intros b. apply (fine_chq s1); auto; [apply chq_fetch_completed|]. apply panic_fetch_completed; auto; [apply X|apply FB; auto]. }
      unfold tgt_done. destruct ok; auto. destruct (fsts s1 st) as [[| | |]|]; auto.
    + unfold op_done. rewrite Eo. auto.
  - unfold base_apply. destruct (ops s n) as [[o [] [| |]]|]; auto. destruct (write_value _ _ _); auto. destruct (_ && _); auto.
  - unfold read_sample. destruct (ops s n) as [[o dv0 [| |]]|]; auto. destruct (_ && _); auto.
  - unfold scribble. destruct (sops s n) as [[? ?]|]; auto.
  - unfold meta_apply. destruct (mops s n) as [[? ? ? []|]|]; auto.
  - apply W. unfold worker_recv. destruct (mq s) as [|[st|st] l] eqn:Em; auto.
    assert (Hst : st < nst c) by (apply (i_F_mq _ _ _ HI); rewrite Em; left; now left).
    eapply fine_chq; [exact F| |apply panic_handle; auto]. unfold handle_fetch_request. sred. destruct (_ <? _); auto. destruct (released _); auto. destruct (fsts s st); auto.
  - auto.
  - apply W. unfold update_autofetch. destruct (autofetch c); auto. destruct (fq s); auto. destruct (fauto s) as [|st l] eqn:Ea; auto.
    assert (Hst : st < nst c) by (apply (i_F_auto _ _ _ HI); rewrite Ea; now left).
    eapply fine_chq; [exact F| |apply panic_handle; auto]. unfold handle_fetch_request. sred. destruct (_ <? _); auto. destruct (released _); auto. destruct (fsts s st); auto.
  - apply W. unfold start_fetch. destruct (fq s) as [|st q] eqn:Eq; auto. destruct (favail s) as [|b av] eqn:Ea; auto. cbv zeta.
    destruct (queued_unrel c hsrc s st q HI Eq) as [Hst Hr].
    destruct (source_accepts _ _ _ _); auto. eapply fine_chq; [exact F|rewrite chq_fetch_completed; auto|].
    apply panic_fetch_completed; auto. sred. intros b'. unfold upd at 1. rewrite Nat.eqb_refl. intros X. injection X as <-. unfold upd. rewrite Nat.eqb_refl.
    split; auto. apply (i_F_pool _ _ _ HI). rewrite Ea. now left.
  - apply W. unfold src_done. destruct (sops s n) as [[st b]|] eqn:Es; auto. cbv zeta.
    destruct (i_F_sop _ _ _ HI _ _ _ Es) as [Hf Hb]. destruct (i_F_range _ _ _ HI _ _ Hf) as [Hst _].
    destruct ok; sred; rewrite Hb.
    + unfold start_write. cbv zeta. pose proof (wf_target _ WF st Hst). destruct (Nat.ltb_spec (target c) (st * ssc c)); [lia|]. auto.
    + eapply fine_chq; [exact F|rewrite chq_fetch_completed; auto|]. apply panic_fetch_completed; auto. apply FB; auto.
  - apply W. auto.
  - apply W. unfold start_meta_write. destruct (mqueue s) as [|[st k] q] eqn:Eq; auto. destruct (mavail s); auto. cbv zeta.
    destruct (existsb _ _); auto. assert (Hst : st < nst c) by (eapply (i_M_queue _ _ _ HI st k); rewrite Eq; now left).
    destruct (Nat.ltb_spec st (nst c)); [|lia]. destruct (has_flag _ _); auto.
  - apply W.
    assert (G : forall s1 st, Inv s1 -> chq s1 = chq s -> panic s1 = false -> fine (meta_completion c st ok s1)).
    { intros s1 st HI1 E1 E2. assert (F1 : fine s1) by (apply (fine_chq s); auto). unfold meta_completion. destruct (mupd s1 st) as [u|] eqn:Eu; auto.
      destruct (i_M_upd _ _ _ HI1 _ _ Eu) as (Hst & _). destruct ok.
      - destruct (u_stage u) eqn:Es.
        + unfold meta_written. rewrite (return_mbuf_ok _ _ _ _ _ HI1 Eu Es). apply (fine_chq s1); auto.
        + unfold meta_flushed, set_stripe_header. cbv zeta. sred. destruct (Nat.ltb_spec st (nst c)); [|lia].
          destruct (has_flag FLAG_FETCHED _), (has_flag FLAG_WRITTEN _); try destruct (released _); apply (fine_chq s1); auto.
      - unfold meta_failed. cbv zeta. destruct (u_stage u) eqn:Es; [|apply (fine_chq s1); auto].
        unfold return_mbuf. sred. destruct (i_M_ubuf _ _ _ HI1 _ _ Eu Es) as [X Y]. rewrite X. destruct (Nat.ltb_spec (u_buf u) MAX_CONCURRENT_CHANGES); [|lia].
        apply (fine_chq s1); auto. }
    pose proof (inv_remove_mop _ _ s n HI) as HI1. unfold meta_done. destruct (mops s n) as [[st g b ap|st snap]|]; auto; cbv zeta.
    + destruct (_ && _); auto. apply G; destruct ok; auto. apply inv_set_mdone; auto.
    + apply G; destruct ok; auto. apply inv_trim_mh; auto.
  - apply W. unfold disconnect. destruct (_ && _); auto.
  - split; auto. intros q r [].
Qed.

Lemma fine_run es : forall s, Ok s -> fine s -> (forall q id r, In (EAdd q id r) es -> req_fits r) -> fine (fst (run c s es)).
Proof.
  induction es as [|e es IH]; intros s H F He; auto. rewrite run_cons. apply IH.
  - apply ok_step; auto.
  - apply fine_step; auto. intros q id r ->. apply (He q id). now left.
  - intros q id r X. apply (He q id). now right.
Qed.

End Run.
