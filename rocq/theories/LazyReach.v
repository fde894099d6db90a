(** The second invariant, continued: metadata completions, exact counters,
    monotonicity of the stripe states, absence of panics; all of it along runs. *)
From Coq Require Import List Arith NArith Bool Lia ZifyBool ZifyNat.
Import ListNotations.
From Verif Require Import Base BaseFacts DiskSpec LazyState MetadataModel LazyModel LazyInv LazyTac LazyInvGuest LazyInvFetch LazyInvMeta LazySim LazyInv2.

(** ** Counting *)
Lemma count_S p k : count p (S k) = count p k + if p k then 1 else 0.
Proof. unfold count. rewrite seq_S, filter_app, app_length. cbn. destruct (p k); auto. Qed.

Lemma count_ext p q k : (forall st, st < k -> p st = q st) -> count p k = count q k.
Proof. induction k; intros H; auto. rewrite !count_S, IHk, H by auto. auto. Qed.

Lemma count_le p q k : (forall st, st < k -> p st = true -> q st = true) -> count p k <= count q k.
Proof.
  induction k; intros H; [cbn; lia|]. rewrite !count_S. specialize (IHk (fun st h => H st (Nat.lt_lt_succ_r _ _ h))).
  specialize (H k (Nat.lt_succ_diag_r k)). destruct (p k), (q k); lia.
Qed.

Lemma count_eq_all p q k : (forall st, st < k -> p st = true -> q st = true) -> count p k = count q k ->
  forall st, st < k -> q st = true -> p st = true.
Proof.
  induction k; intros H E st Hst Hq; [lia|]. rewrite !count_S in E.
  pose proof (count_le p q k (fun st h => H st (Nat.lt_lt_succ_r _ _ h))) as L.
  pose proof (H k (Nat.lt_succ_diag_r k)) as Hk. destruct (Nat.eq_dec st k) as [->|Hne].
  - rewrite Hq in E. destruct (p k); [auto|lia].
  - apply IHk; auto; try lia. destruct (p k) eqn:E1, (q k) eqn:E2; lia.
Qed.

Lemma count_bound p k : count p k <= k.
Proof. induction k; [auto|]. rewrite count_S. destruct (p k); lia. Qed.

Lemma count_flip p q k st : st < k -> p st = false -> q st = true -> (forall x, x <> st -> q x = p x) -> count q k = S (count p k).
Proof.
  induction k; intros Hst Hp Hq He; [lia|]. rewrite !count_S. destruct (Nat.eq_dec st k) as [->|Hne].
  - rewrite Hp, Hq. rewrite (count_ext q p k); [lia|]. intros x Hx. apply He. lia.
  - rewrite IHk by (auto; lia). rewrite He by auto. lia.
Qed.

Section Reach.
Context {V : Type}.
Variable c : cfg V.
Variable hsrc : nat -> bool.
Hypothesis WF : wf c.
Notation Inv := (Inv c hsrc).
Notation Sim := (Sim c).
Notation EF := (@EF V).
Notation EM := (EM c).

Lemma em_ex (ex ex' : nat -> Prop) (s : state V) : (forall st, ex st -> ex' st) -> EM ex s -> EM ex' s.
Proof. intros H [A B C D]. constructor; auto. Qed.

Lemma em_meta_done n ok s : Inv s -> EM none s -> EM none (meta_done c n ok s).
Proof.
  intros HI H. unfold meta_done.
  assert (R : forall o st, mops s n = Some o -> mop_stripe o = st -> EM (eq st) (set_mops (upd (mops s) n None) s)).
  { intros o st Ho Est. destruct H as [A B C D]. constructor; auto. intros x u Hx Hu.
    destruct (A x u) as (n' & X); [intros []|auto|]. exists n'. sred.
    assert (n' <> n). { intros ->. rewrite Ho in X. destruct (u_stage u); [destruct X as (? & ? & X)|destruct X as (? & X)]; injection X as ->; cbn in Est; congruence. }
    unfold upd. destruct (Nat.eqb_spec n' n); [congruence|auto]. }
  assert (Hn : forall k, next s <= k -> upd (mops s) n None k = None).
  { intros k Hk. unfold upd. destruct (k =? n); auto. eapply mops_next; eauto. }
  destruct (mops s n) as [[st g b ap|st snap]|] eqn:Eo; auto; cbv zeta.
  - destruct (ok && negb ap); auto. pose proof (R _ st eq_refl eq_refl) as HM. pose proof (inv_remove_mop _ _ s n HI) as HI1. 
    apply (em_meta_completion c hsrc); destruct ok; auto.
    + apply inv_set_mdone; auto.
    + apply (em_frame _ _ _ _ HM); auto.
  - pose proof (R _ st eq_refl eq_refl) as HM. pose proof (inv_remove_mop _ _ s n HI) as HI1.
    apply (em_meta_completion c hsrc); destruct ok; auto.
    + apply inv_trim_mh; auto.
    + apply (em_frame _ _ _ _ HM); auto.
Qed.

Lemma em_boot n hist mhist bd md :
  (forall st, st < nst c -> has_flag FLAG_FETCHED (loaded_headers c mhist st) = true -> has_flag FLAG_HAS_SOURCE (loaded_headers c mhist st) = true) ->
  EM none (boot c n hist mhist bd md).
Proof.
  intros Hf. constructor; unfold boot; cbv zeta; sred; try discriminate.
  - intros b Hb. left. apply in_seq. lia.
  - intros st Hst Hh. left. destruct (Nat.ltb_spec st (nst c)); [|lia]. unfold initial_fetch_state. rewrite (Hf st), Hh; auto.
  - intros st Hst Hh. left. destruct (Nat.ltb_spec st (nst c)); [|lia]. auto.
Qed.

(** ** Counters *)
Definition is_fetched (f : fetch_state) : bool := match f with Fetched => true | _ => false end.
Record CN (s : state V) : Prop := {
  cn_S : cntS s = count hsrc (nst c);
  cn_F : cntF s = count (fun st => is_fetched (shf s st)) (nst c);
  cn_live : slive s = false -> forall st, st < nst c -> released (shf s st) = true
}.

Lemma cn_frame s s' : CN s -> cntS s' = cntS s -> cntF s' = cntF s -> shf s' = shf s -> slive s' = slive s -> CN s'.
Proof. intros [A B C] H1 H2 H3 H4. constructor; rewrite ?H1, ?H2, ?H3, ?H4; auto. Qed.

Lemma cn_gf s s' : guest_frame s s' -> CN s -> CN s'.
Proof. intros G H. eapply cn_frame; eauto; apply G. Qed.

Lemma release_buf_frame st (s : state V) : cntS (release_buf st s) = cntS s /\ cntF (release_buf st s) = cntF s /\
  shf (release_buf st s) = shf s /\ slive (release_buf st s) = slive s /\ shw (release_buf st s) = shw s.
Proof. unfold release_buf. destruct (fbuf s st); auto. unfold return_fbuf. sred. destruct (_ && _); auto. Qed.

Lemma cn_fetch_completed st ok s : st < nst c -> released (shf s st) = false -> CN s -> CN (fetch_completed c st ok s).
Proof.
  intros Hst Hr H. rewrite fetch_completed_eq. cbv zeta. destruct (release_buf_frame st s) as (R1 & R2 & R3 & R4 & _).
  assert (H1 : CN (release_buf st s)) by (apply (cn_frame s); auto). set (s1 := release_buf st s) in *. clearbody s1.
  destruct ok; [apply (cn_frame s1); auto|]. destruct (_ <? _); [apply (cn_frame s1); auto|].
  destruct (_ <? _); [|apply (cn_frame s1); auto]. destruct H1 as [A B C]. constructor; sred; auto.
  - rewrite B. apply count_ext. intros x Hx. unfold upd. destruct (Nat.eqb_spec x st); auto. subst. rewrite R3.
    destruct (shf s st); auto; discriminate.
  - intros Hl x Hx. rewrite <- R3 in Hr. rewrite (C Hl st Hst) in Hr. discriminate.
Qed.

Lemma cn_handle_fetch st s : CN s -> CN (handle_fetch_request c st s).
Proof.
  intros H. unfold handle_fetch_request. destruct (st <? nst c); [|apply (cn_frame s); auto].
  destruct (released _); auto. destruct (fsts s st); auto. apply (cn_frame s); auto.
Qed.

Lemma queued_unrel s st q : Inv s -> fq s = st :: q -> st < nst c /\ released (shf s st) = false.
Proof.
  intros HI Eq. assert (X : fsts s st = Some FQueued) by (apply (i_F_queue _ _ _ HI); rewrite Eq; now left). split.
  - apply (i_F_range _ _ _ HI _ _ X).
  - apply (i_F_unrel _ _ _ HI _ _ X). discriminate.
Qed.

Lemma cn_start_fetch a s : Inv s -> CN s -> CN (start_fetch c a s).
Proof.
  intros HI H. unfold start_fetch. destruct (fq s) as [|st q] eqn:Eq; auto. destruct (favail s) as [|b av] eqn:Ea; auto. cbv zeta.
  destruct (queued_unrel s st q HI Eq) as [Hst Hr].
  destruct (source_accepts _ _ _ _); [apply (cn_frame s); auto|]. apply cn_fetch_completed; auto. apply (cn_frame s); auto.
Qed.

Lemma cn_src_done n ok s : Inv s -> CN s -> CN (src_done c n ok s).
Proof.
  intros HI H. unfold src_done. destruct (sops s n) as [[st b]|] eqn:Es; auto. cbv zeta.
  destruct (i_F_sop _ _ _ HI _ _ _ Es) as [Hf Hb]. destruct (i_F_range _ _ _ HI _ _ Hf) as [Hst _].
  assert (Hr : released (shf s st) = false) by (apply (i_F_unrel _ _ _ HI _ _ Hf); discriminate).
  destruct ok.
  - sred. destruct (fbuf s st); [|apply (cn_frame s); auto]. unfold start_write. cbv zeta. destruct (_ <? _); apply (cn_frame s); auto.
  - sred. destruct (fbuf s st); [|apply (cn_frame s); auto]. apply cn_fetch_completed; auto. apply (cn_frame s); auto.
Qed.

Lemma fetch_op_unrel s n st dv k : Inv s -> ops s n = Some (mk_op (OFetch st) dv k) -> st < nst c /\ released (shf s st) = false.
Proof.
  intros HI Eo. destruct (i_F_op _ _ _ HI _ _ _ _ Eo) as [_ Hk].
  assert (Hfs : fsts s st = Some FFetching \/ fsts s st = Some FFlushing) by (destruct k; tauto).
  destruct Hfs as [X|X]; (split; [apply (i_F_range _ _ _ HI _ _ X)|apply (i_F_unrel _ _ _ HI _ _ X); discriminate]).
Qed.

Lemma complete_medium_frame n k (s : state V) : cntS (complete_medium n k s) = cntS s /\ cntF (complete_medium n k s) = cntF s /\
  shf (complete_medium n k s) = shf s /\ slive (complete_medium n k s) = slive s /\ shw (complete_medium n k s) = shw s.
Proof. destruct k; auto. Qed.

Lemma op_done_fetch_eq n ok s st dv k : ops s n = Some (mk_op (OFetch st) dv k) -> 
  fst (op_done c n ok s) = s \/
  fst (op_done c n ok s) = tgt_done c st ok (if ok then complete_medium n k (set_ops (upd (ops s) n None) s) else set_ops (upd (ops s) n None) s).
Proof. intros E. unfold op_done. rewrite E. destruct (_ && _); auto. destruct (wdone s); auto. Qed.

Lemma cn_op_done n ok s : Inv s -> CN s -> CN (fst (op_done c n ok s)).
Proof.
  intros HI H. destruct (ops s n) as [[[q id|st] dv k]|] eqn:Eo; [| |unfold op_done; rewrite Eo; auto].
  - unfold op_done. rewrite Eo. destruct (_ && _); auto. cbn [fst]. destruct ok; [destruct k|]; apply (cn_frame s); auto.
  - destruct (op_done_fetch_eq n ok s st dv k Eo) as [->| ->]; auto. destruct (fetch_op_unrel _ _ _ _ _ HI Eo) as [Hst Hr].
    assert (H1 : CN (if ok then complete_medium n k (set_ops (upd (ops s) n None) s) else set_ops (upd (ops s) n None) s) /\
      released (shf (if ok then complete_medium n k (set_ops (upd (ops s) n None) s) else set_ops (upd (ops s) n None) s) st) = false).
    { destruct ok; [destruct k|]; split; auto; apply (cn_frame s); auto. }
    set (s1 := if ok then _ else _) in *. clearbody s1. destruct H1 as [H1 H2]. unfold tgt_done. destruct ok; [|apply cn_fetch_completed; auto].
    destruct (fsts s1 st) as [[| | |]|]; auto; [|apply cn_fetch_completed; auto]. apply (cn_frame s1); auto.
Qed.

Lemma fetched_src s st : Inv s -> st < nst c -> is_fetched (shf s st) = true -> hsrc st = true.
Proof. intros HI Hst Hf. pose proof (proj1 (i_M_shf _ _ _ HI st) Hst) as X. destruct (shf s st); try discriminate. auto. Qed.

Lemma cn_disconnect s : Inv s -> CN s -> CN (disconnect s).
Proof.
  intros HI H. unfold disconnect. destruct (_ && (cntS s =? cntF s)) eqn:E; auto. apply andb_true_iff in E. destruct E as [_ E].
  apply Nat.eqb_eq in E. destruct H as [A B C]. constructor; sred; auto. intros _ st Hst.
  destruct (hsrc st) eqn:Eh.
  - assert (is_fetched (shf s st) = true); [|destruct (shf s st); auto; discriminate].
    apply (count_eq_all (fun st => is_fetched (shf s st)) hsrc (nst c)); auto; try congruence. intros x Hx. apply fetched_src; auto.
  - pose proof (proj1 (i_M_shf _ _ _ HI st) Hst) as X. destruct (shf s st); auto; congruence.
Qed.

Lemma cn_meta_completion st ok s : Inv s -> EM (eq st) s -> CN s -> CN (meta_completion c st ok s).
Proof.
  intros HI HM H. unfold meta_completion. destruct (mupd s st) as [u|] eqn:Eu; auto.
  destruct (i_M_upd _ _ _ HI _ _ Eu) as (Hst & _ & _ & Hhd & Hm1 & Hm2). destruct ok.
  - destruct (u_stage u) eqn:Es.
    + unfold meta_written. rewrite (return_mbuf_ok _ _ _ _ _ HI Eu Es). apply (cn_frame s); auto.
    + unfold meta_flushed, set_stripe_header. cbv zeta. destruct (Nat.ltb_spec st (nst c)); [|lia]. sred. rewrite Hhd.
      match goal with |- CN (if _ then set_shw _ ?a else _) => set (s1 := a) end.
      cut (CN s1); [intros X; destruct (has_flag FLAG_WRITTEN _); auto; apply (cn_frame s1); auto|].
      unfold s1. destruct (has_flag FLAG_FETCHED (hdrs s st)) eqn:Ef; [|apply (cn_frame s); auto].
      destruct H as [A B C]. assert (Hs : hsrc st = true) by (apply (i_M_safe _ _ _ HI st Hst); auto).
      destruct (released (shf s st)) eqn:Er.
      * assert (Esf : shf s st = Fetched).
        { pose proof (proj1 (i_M_shf _ _ _ HI st) Hst) as X. destruct (shf s st); auto; try discriminate. congruence. }
        constructor; sred; auto.
        -- rewrite B. apply count_ext. intros x Hx. unfold upd. destruct (Nat.eqb_spec x st); auto. subst. rewrite Esf. auto.
        -- intros Hl x Hx. unfold upd. destruct (Nat.eqb_spec x st); auto.
      * constructor; sred; auto.
        -- rewrite B. symmetry. apply (count_flip _ _ _ st); auto.
           ++ destruct (shf s st); auto; discriminate.
           ++ unfold upd. now rewrite Nat.eqb_refl.
           ++ intros x Hx. unfold upd. destruct (Nat.eqb_spec x st); congruence.
        -- intros Hl x Hx. unfold upd. destruct (Nat.eqb_spec x st); auto.
  - unfold meta_failed. cbv zeta. destruct (u_stage u) eqn:Es; [|apply (cn_frame s); auto].
    unfold return_mbuf. sred. destruct (_ && _); apply (cn_frame s); auto.
Qed.

Lemma cn_meta_done n ok s : Inv s -> EM none s -> CN s -> CN (meta_done c n ok s).
Proof.
  intros HI HM H. unfold meta_done.
  assert (R : forall o st, mops s n = Some o -> mop_stripe o = st -> EM (eq st) (set_mops (upd (mops s) n None) s)).
  { intros o st Ho Est. destruct HM as [A B C D]. constructor; auto. intros x u Hx Hu.
    destruct (A x u) as (n' & X); [intros []|auto|]. exists n'. sred.
    assert (n' <> n). { intros ->. rewrite Ho in X. destruct (u_stage u); [destruct X as (? & ? & X)|destruct X as (? & X)]; injection X as ->; cbn in Est; congruence. }
    unfold upd. destruct (Nat.eqb_spec n' n); [congruence|auto]. }
  pose proof (inv_remove_mop _ _ s n HI) as HI1.
  destruct (mops s n) as [[st g b ap|st snap]|] eqn:Eo; auto; cbv zeta.
  - destruct (ok && negb ap); auto. pose proof (R _ st eq_refl eq_refl) as HM1.
    apply cn_meta_completion; destruct ok; auto; [|apply (em_frame _ _ _ _ HM1)| |]; auto.
    + apply inv_set_mdone; auto.
    + apply (cn_frame s); auto.
    + apply (cn_frame s); auto.
  - pose proof (R _ st eq_refl eq_refl) as HM1.
    apply cn_meta_completion; destruct ok; auto; [|apply (em_frame _ _ _ _ HM1)| |]; auto.
    + apply inv_trim_mh; auto.
    + apply (cn_frame s); auto.
    + apply (cn_frame s); auto.
Qed.

Lemma cn_start_meta_write s : CN s -> CN (start_meta_write c s).
Proof.
  intros H. unfold start_meta_write. destruct (mqueue s) as [|[st k] q]; auto. destruct (mavail s); auto. cbv zeta.
  destruct (existsb _ _); auto. destruct (_ <? _); [|apply (cn_frame s); auto]. destruct (has_flag _ _); apply (cn_frame s); auto.
Qed.

Lemma cn_boot n hist mhist bd md :
  (forall st, st < nst c -> has_flag FLAG_HAS_SOURCE (loaded_headers c mhist st) = hsrc st) ->
  (forall st, st < nst c -> has_flag FLAG_FETCHED (loaded_headers c mhist st) = true -> hsrc st = true) ->
  CN (boot c n hist mhist bd md).
Proof.
  intros Hs Hf. unfold boot. cbv zeta. constructor; sred.
  - apply count_ext. auto.
  - apply count_ext. intros st Hst. destruct (Nat.ltb_spec st (nst c)); [|lia]. unfold initial_fetch_state. rewrite Hs by auto.
    specialize (Hf st Hst). destruct (has_flag FLAG_FETCHED _), (hsrc st); auto. specialize (Hf eq_refl). discriminate.
  - intros Hl st Hst. destruct (Nat.ltb_spec st (nst c)); [|lia]. apply negb_false_iff in Hl. unfold all_fetched in Hl.
    rewrite forallb_forall in Hl. specialize (Hl st). rewrite in_seq in Hl. specialize (Hl ltac:(lia)). unfold initial_fetch_state.
    destruct (has_flag FLAG_HAS_SOURCE _), (has_flag FLAG_FETCHED _); auto; discriminate.
Qed.

(** ** All invariants together *)
Record Inv2 (s : state V) : Prop := { j_ef : EF none s; j_em : EM none s; j_cn : CN s }.

Lemma loaded_crash pm s st : Inv s -> exists e, In e (mh s (group_of c st)) /\ loaded_headers c (fun g => crashed (mh s g) (pm g)) st = snd e st.
Proof.
  intros HI. destruct (loaded_in c (fun g => crashed (mh s g) (pm g)) st) as (e & Hi & ->).
  { apply crashed_nonempty. exact (i_M_nonempty _ _ _ HI _). }
  destruct (crashed_in _ _ _ Hi) as (e' & Hi' & ->). exists e'. auto.
Qed.

Lemma inv2_crash pb pm s : Inv s -> Inv2 (crash c pb pm s).
Proof.
  intros HI. unfold crash. split; [apply ef_boot|apply em_boot|apply cn_boot].
  - intros st Hst. destruct (loaded_crash pm s st HI) as (e & Hi & ->). intros Hf.
    rewrite (proj2 (i_M_src _ _ _ HI st Hst) e Hi). apply (i_M_safe _ _ _ HI st Hst). eauto.
  - intros st Hst. destruct (loaded_crash pm s st HI) as (e & Hi & ->). apply (i_M_src _ _ _ HI st Hst); auto.
  - intros st Hst. destruct (loaded_crash pm s st HI) as (e & Hi & ->). intros Hf. apply (i_M_safe _ _ _ HI st Hst). eauto.
Qed.

Lemma inv2_init base h : (forall st, st < nst c -> has_flag FLAG_HAS_SOURCE (h st) = hsrc st) ->
  (forall st, st < nst c -> has_flag FLAG_FETCHED (h st) = true -> hsrc st = true) -> Inv2 (init c base h).
Proof.
  intros Hs Hf. unfold init. split; [apply ef_boot|apply em_boot|apply cn_boot]; unfold loaded_headers; cbn [snd]; auto.
  intros st Hst. rewrite Hs; auto.
Qed.

Lemma em_cn_ef_same s s' : Inv2 s -> fsts s' = fsts s -> fbuf s' = fbuf s -> sops s' = sops s -> same_fetch_ops s s' ->
  favail s' = favail s -> fret s' = fret s -> mupd s' = mupd s -> mops s' = mops s -> mavail s' = mavail s -> hdrs s' = hdrs s ->
  shf s' = shf s -> shw s' = shw s -> cntS s' = cntS s -> cntF s' = cntF s -> slive s' = slive s -> Inv2 s'.
Proof.
  intros [A B C]. intros. split.
  - eapply ef_frame; eauto.
  - eapply em_frame; eauto. congruence.
  - eapply cn_frame; eauto.
Qed.

Lemma em_handle_fetch st s : EM none s -> EM none (handle_fetch_request c st s).
Proof.
  intros H. unfold handle_fetch_request. destruct (_ <? _); [|apply (em_frame _ _ s); auto].
  destruct (released _); auto. destruct (fsts s st); auto. apply (em_frame _ _ s); auto.
Qed.

Lemma inv2_handle_fetch st s : Inv2 s -> Inv2 (handle_fetch_request c st s).
Proof. intros [A B C]. split; [apply ef_handle_fetch|apply em_handle_fetch|apply cn_handle_fetch]; auto. Qed.

Lemma inv2_gf s s' : guest_frame s s' -> Inv2 s -> Inv2 s'.
Proof. intros G [A B C]. split; [eapply ef_gf|eapply em_gf|eapply cn_gf]; eauto. Qed.

Lemma inv2_op_done n ok s : Inv s -> Inv2 s -> Inv2 (fst (op_done c n ok s)).
Proof.
  intros HI [A B C]. split; [apply (ef_op_done c hsrc); auto| |apply cn_op_done; auto].
  destruct (ops s n) as [[[q id|st] dv k]|] eqn:Eo; [| |unfold op_done; rewrite Eo; auto].
  - unfold op_done. rewrite Eo. destruct (_ && _); auto. cbn [fst]. destruct ok; [destruct k|]; apply (em_frame _ _ s); auto.
  - destruct (op_done_fetch_eq n ok s st dv k Eo) as [->| ->]; auto. destruct (fetch_op_unrel _ _ _ _ _ HI Eo) as [Hst Hr].
    assert (H1 : EM none (if ok then complete_medium n k (set_ops (upd (ops s) n None) s) else set_ops (upd (ops s) n None) s) /\
      released (shf (if ok then complete_medium n k (set_ops (upd (ops s) n None) s) else set_ops (upd (ops s) n None) s) st) = false).
    { destruct ok; [destruct k|]; split; auto; apply (em_frame _ _ s); auto. }
    set (s1 := if ok then _ else _) in *. clearbody s1. destruct H1 as [H1 H2]. unfold tgt_done. destruct ok; [|apply em_fetch_completed; auto].
    destruct (fsts s1 st) as [[| | |]|]; auto; [|apply em_fetch_completed; auto]. apply (em_frame _ _ s1); auto.
Qed.

Lemma inv2_start_fetch a s : Inv s -> Inv2 s -> Inv2 (start_fetch c a s).
Proof.
  intros HI [A B C]. split; [apply (ef_start_fetch c hsrc); auto| |apply cn_start_fetch; auto].
  unfold start_fetch. destruct (fq s) as [|st q] eqn:Eq; auto. destruct (favail s) as [|b av] eqn:Ea; auto. cbv zeta.
  destruct (queued_unrel s st q HI Eq) as [Hst Hr].
  destruct (source_accepts _ _ _ _); [apply (em_frame _ _ s); auto|]. apply em_fetch_completed; auto. apply (em_frame _ _ s); auto.
Qed.

Lemma inv2_src_done n ok s : Inv s -> Inv2 s -> Inv2 (src_done c n ok s).
Proof.
  intros HI [A B C]. split; [apply (ef_src_done c hsrc); auto| |apply cn_src_done; auto].
  unfold src_done. destruct (sops s n) as [[st b]|] eqn:Es; auto. cbv zeta.
  destruct (i_F_sop _ _ _ HI _ _ _ Es) as [Hf Hb].
  assert (Hr : released (shf s st) = false) by (apply (i_F_unrel _ _ _ HI _ _ Hf); discriminate).
  destruct ok; sred; (destruct (fbuf s st); [|apply (em_frame _ _ s); auto]).
  - unfold start_write. cbv zeta. destruct (_ <? _); apply (em_frame _ _ s); auto.
  - apply em_fetch_completed; auto. apply (em_frame _ _ s); auto.
Qed.

Lemma ef_meta_done n ok s : EF none s -> EF none (meta_done c n ok s).
Proof.
  intros H. unfold meta_done. cbv zeta.
  assert (G : forall s1 st, EF none s1 -> EF none (meta_completion c st ok s1)).
  { intros s1 st H1. unfold meta_completion. destruct (mupd s1 st) as [u|]; auto. destruct ok.
    - destruct (u_stage u).
      + unfold meta_written, return_mbuf. destruct (_ && _); (apply (ef_frame _ s1); auto; now apply same_ops_refl).
      + unfold meta_flushed, set_stripe_header. cbv zeta. sred. destruct (_ <? _); [|apply (ef_frame _ s1); auto; now apply same_ops_refl].
        destruct (has_flag FLAG_FETCHED _), (has_flag FLAG_WRITTEN _); try destruct (released _); (apply (ef_frame _ s1); auto; now apply same_ops_refl).
    - unfold meta_failed, return_mbuf. cbv zeta. destruct (u_stage u); try destruct (_ && _); (apply (ef_frame _ s1); auto; now apply same_ops_refl). }
  destruct (mops s n) as [[st g b ap|st snap]|]; auto.
  - destruct (_ && _); auto. apply G. destruct ok; (apply (ef_frame _ s); auto; now apply same_ops_refl).
  - apply G. destruct ok; (apply (ef_frame _ s); auto; now apply same_ops_refl).
Qed.

Lemma ops_next2 (s : state V) : Inv s -> forall n, next s <= n -> ops s n = None.
Proof. intros HI n Hn. eapply ops_next; eauto. Qed.

Lemma inv2_step s d e : Inv s -> Sim s d -> Inv2 s -> Inv2 (fst (step c s e)).
Proof.
  intros HI HS H. unfold step.
  assert (W : forall f, Inv2 (f s) -> Inv2 (worker f s)) by (intros f Hf; unfold worker; destruct (wdone s); auto).
  assert (Sm : forall s' : state V, fsts s' = fsts s -> fbuf s' = fbuf s -> sops s' = sops s -> same_fetch_ops s s' ->
    favail s' = favail s -> fret s' = fret s -> mupd s' = mupd s -> mops s' = mops s -> mavail s' = mavail s -> hdrs s' = hdrs s ->
    shf s' = shf s -> shw s' = shw s -> cntS s' = cntS s -> cntF s' = cntF s -> slive s' = slive s -> Inv2 s').
  { intros. eapply em_cn_ef_same; eauto. }
  destruct e; try (destruct (panic s) eqn:Hp; [exact H|]); cbn [fst].
  - eapply inv2_gf; eauto. apply gf_add_req. apply ops_next2; auto.
  - eapply inv2_gf; eauto. apply gf_process_front. intros r Hr. eapply queue_serials; eauto.
  - eapply inv2_gf; eauto. apply gf_take_finished.
  - apply inv2_op_done; auto.
  - unfold base_apply. destruct (ops s n) as [[o [] [| |]]|] eqn:Eo; auto. destruct (write_value _ _ _); auto. destruct (_ && _); auto.
    apply Sm; auto. intros m st dv k X. sred. unfold upd. destruct (Nat.eqb_spec m n).
    + subst. rewrite Eo in X. injection X as -> <- <-. eexists. split; [reflexivity|exact I].
    + exists k. split; auto. destruct k; auto.
  - unfold read_sample. destruct (ops s n) as [[o dv0 [| |]]|] eqn:Eo; auto. destruct (_ && _); auto.
    apply Sm; auto. intros m st dv k X. sred. unfold upd. destruct (Nat.eqb_spec m n).
    + subst. rewrite Eo in X. injection X as -> <- <-. eexists. split; [reflexivity|exact I].
    + exists k. split; auto. destruct k; auto.
  - unfold scribble. destruct (sops s n) as [[? ?]|]; auto. apply Sm; auto. now apply same_ops_refl.
  - destruct H as [A B C]. split.
    + unfold meta_apply. destruct (mops s n) as [[? ? ? []|]|]; auto. apply (ef_frame _ s); auto. now apply same_ops_refl.
    + apply em_meta_apply; auto.
    + unfold meta_apply. destruct (mops s n) as [[? ? ? []|]|]; auto. apply (cn_frame s); auto.
  - apply W. unfold worker_recv. destruct (mq s) as [|[st|st] l]; auto.
    + apply inv2_handle_fetch. apply Sm; auto. now apply same_ops_refl.
    + apply Sm; auto. now apply same_ops_refl.
  - apply Sm; auto. now apply same_ops_refl.
  - apply W. unfold update_autofetch. destruct (autofetch c); auto. destruct (fq s); auto. destruct (fauto s); auto.
    apply inv2_handle_fetch. apply Sm; auto. now apply same_ops_refl.
  - apply W. apply inv2_start_fetch; auto.
  - apply W. apply inv2_src_done; auto.
  - apply W. apply Sm; auto. now apply same_ops_refl.
  - apply W. destruct H as [A B C]. split.
    + unfold start_meta_write. destruct (mqueue s) as [|[st k] q]; auto. destruct (mavail s); auto. cbv zeta.
      destruct (existsb _ _); auto. destruct (_ <? _); [|apply (ef_frame _ s); auto; now apply same_ops_refl].
      destruct (has_flag _ _); (apply (ef_frame _ s); auto; now apply same_ops_refl).
    + apply (em_start_meta_write c hsrc); auto.
    + apply cn_start_meta_write; auto.
  - apply W. destruct H as [A B C]. split; [apply ef_meta_done|apply em_meta_done|apply cn_meta_done]; auto.
  - apply W. destruct H as [A B C]. split; [| |apply cn_disconnect; auto]; unfold disconnect; destruct (_ && _); auto.
    + apply (ef_frame _ s); auto. now apply same_ops_refl.
    + apply (em_frame _ _ s); auto.
  - apply inv2_crash; auto.
Qed.

End Reach.
