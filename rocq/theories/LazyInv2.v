(** A second invariant of the lazy-device model: everything that is in progress
    has its operation, buffer and pool entry (so nothing is leaked or forgotten),
    and the shared counters are exact. *)
From Coq Require Import List Arith NArith Bool Lia ZifyBool ZifyNat.
Import ListNotations.
From Verif Require Import Base BaseFacts DiskSpec LazyState MetadataModel LazyModel LazyInv LazyTac LazyInvGuest LazyInvFetch LazyInvMeta.

(** ** Guest steps leave the worker's fields alone *)
Section Frame.
Context {V : Type}.
Variable c : cfg V.

Record guest_frame (s s' : state V) : Prop := {
  g_shf : shf s' = shf s; g_shw : shw s' = shw s; g_cntF : cntF s' = cntF s; g_cntS : cntS s' = cntS s;
  g_wdone : wdone s' = wdone s; g_fq : fq s' = fq s; g_fauto : fauto s' = fauto s; g_fsts : fsts s' = fsts s;
  g_fret : fret s' = fret s; g_fbuf : fbuf s' = fbuf s; g_ffin : ffin s' = ffin s; g_fdisc : fdisc s' = fdisc s;
  g_favail : favail s' = favail s; g_fuse : fuse s' = fuse s; g_hdrs : hdrs s' = hdrs s;
  g_mupd : mupd s' = mupd s; g_msec : msec s' = msec s; g_mqueue : mqueue s' = mqueue s;
  g_mavail : mavail s' = mavail s; g_muse : muse s' = muse s; g_mbufs : mbufs s' = mbufs s;
  g_sops : sops s' = sops s; g_mops : mops s' = mops s; g_mh : mh s' = mh s; g_bh : bh s' = bh s;
  g_slive : slive s' = slive s;
  g_ops : forall n st dv k, ops s' n = Some (mk_op (OFetch st) dv k) <-> ops s n = Some (mk_op (OFetch st) dv k)
}.

Lemma gf_refl s : guest_frame s s.
Proof. constructor; tauto || reflexivity. Qed.

(** Same, given only the fields guest steps may change. *)
Lemma gf_sets (s : state V) q f r m p n o :
  (forall k st dv kk, o k = Some (mk_op (OFetch st) dv kk) <-> ops s k = Some (mk_op (OFetch st) dv kk)) ->
  guest_frame s (set_chq q (set_chfin f (set_chreq r (set_mq m (set_panic p (set_next n (set_ops o s))))))).
Proof. intros H. constructor; try reflexivity. exact H. Qed.

Ltac gf := constructor; try reflexivity; sred; try (intros; tauto).

Lemma gf_add_req q id r s : (forall n, next s <= n -> ops s n = None) -> guest_frame s (add_req c q id r s).
Proof.
  intros Hn.
  assert (Hi : forall dv k m st dv' kk, upd (ops s) (next s) (Some (mk_op (OGuest q id) dv k)) m = Some (mk_op (OFetch st) dv' kk)
    <-> ops s m = Some (mk_op (OFetch st) dv' kk)).
  { intros dv k m st dv' kk. unfold upd. destruct (Nat.eqb_spec m (next s)); [|tauto]. subst. rewrite Hn by lia. split; discriminate. }
  assert (Hq : forall off data, guest_frame s (queue_write c (next s) q id off data (set_next (S (next s)) s))).
  { intros off data. unfold queue_write.
    destruct (ssf_spec c q (stripes_of c off (length data)) (set_next (S (next s)) s)) as (cr & l & E & _).
    destruct (start_stripe_fetches _ _ _ _) as [s1 r1]. cbn [fst] in E. subst s1.
    destruct r1; try solve [gf]. destruct (track c); try solve [gf].
    destruct (ssw_spec c (stripes_of c off (length data)) (set_chreq cr (set_mq (mq (set_next (S (next s)) s) ++ l) (set_next (S (next s)) s)))) as (l2 & E2 & _).
    destruct (start_stripe_set_written _ _ _) as [s2 r2]. cbn [fst] in E2. subst s2. destruct r2; gf. }
  assert (Hiss : forall dv r0, guest_frame s (issue (next s) q id dv r0 (set_next (S (next s)) s))).
  { intros dv r0. gf. apply Hi. }
  unfold add_req. destruct r as [off len|off data|].
  - unfold add_read. destruct (fetch_status _ _ _); try solve [gf]; auto.
    destruct (_ && _); auto.
    destruct (ssf_spec c q (stripes_of c off len) (set_next (S (next s)) s)) as (cr & l & E & _).
    destruct (start_stripe_fetches _ _ _ _) as [s1 r1]. cbn [fst] in E. subst s1. destruct r1; gf.
  - unfold add_write. destruct (fetch_status _ _ _); try solve [gf]; auto.
    destruct (track c); auto. destruct (stripes_written _ _ _) as [[|]|]; try solve [gf]; auto.
  - auto.
Qed.

Lemma gf_process_front q s : (forall r, In r (chq s q) -> ops s (rq_serial r) = None) ->
  guest_frame s (process_front c q s).
Proof.
  intros Hn. unfold process_front. destruct (chq s q) as [|r l] eqn:Eq; [apply gf_refl|].
  assert (Hr : ops s (rq_serial r) = None) by (apply Hn; rewrite ?Eq; now left).
  assert (Hgo : guest_frame s (set_chreq (upd (chreq s) q (remove_all (chreq s q) (req_stripes c (rq_req r))))
                (issue (rq_serial r) q (rq_id r) DBase (rq_req r) (set_chq (upd (chq s) q l) s)))).
  { unfold issue. gf. intros m st dv k. unfold upd. destruct (Nat.eqb_spec m (rq_serial r)); [subst; rewrite Hr; split; discriminate|tauto]. }
  destruct (fetch_status _ _ _); try apply gf_refl; try solve [gf]; auto.
  destruct (_ && _); auto. destruct (stripes_written _ _ _) as [[|]|]; auto; try apply gf_refl; gf.
Qed.

Lemma gf_take_finished q s : guest_frame s (fst (take_finished q s)).
Proof. gf. Qed.

(** Completion of a guest operation. *)
Lemma gf_guest_done n ok (s : state V) q id dv k : ops s n = Some (mk_op (OGuest q id) dv k) ->
  bh (fst (op_done c n ok s)) = bh s \/ True ->
  shf (fst (op_done c n ok s)) = shf s /\ shw (fst (op_done c n ok s)) = shw s.
Proof.
  intros H _. unfold op_done. rewrite H. destruct (_ && _); auto. destruct ok; auto. destruct k; auto.
Qed.

End Frame.

Section Inv2.
Context {V : Type}.
Variable c : cfg V.
Variable hsrc : nat -> bool.
Hypothesis WF : wf c.
Notation Inv := (Inv c hsrc).

(** ** The fetcher: [ex] marks stripes exempt while their completion is handled. *)
Record EF (ex : nat -> Prop) (s : state V) : Prop := {
  ef_buf : forall st, fsts s st = Some FFetching \/ fsts s st = Some FFlushing -> exists b, fbuf s st = Some b;
  ef_src : forall st, ~ ex st -> fsts s st = Some FFetching ->
     (exists n b, sops s n = Some (st, b)) \/
     (exists n dv off len d ap, ops s n = Some (mk_op (OFetch st) dv (KWrite off len d ap)));
  ef_flush : forall st, ~ ex st -> fsts s st = Some FFlushing ->
     exists n dv snap, ops s n = Some (mk_op (OFetch st) dv (KFlush snap));
  ef_pool : forall b, b < MAX_CONCURRENT_FETCHES -> In b (favail s) \/ exists st, fbuf s st = Some b;
  ef_ret : forall st, fsts s st = None \/ fsts s st = Some FFetched -> fret s st = 0
}.
Definition none (st : nat) : Prop := False.

Definition same_fetch_ops (s s' : state V) : Prop :=
  forall n st dv k, ops s n = Some (mk_op (OFetch st) dv k) ->
    exists k', ops s' n = Some (mk_op (OFetch st) dv k') /\
      match k, k' with
      | KWrite off len d _, KWrite off' len' d' _ => True
      | KFlush sn, KFlush sn' => True
      | KRead _ _ _, KRead _ _ _ => True
      | _, _ => False
      end.

Lemma ef_frame ex s s' : EF ex s -> fsts s' = fsts s -> fbuf s' = fbuf s -> sops s' = sops s -> same_fetch_ops s s' ->
  favail s' = favail s -> fret s' = fret s -> EF ex s'.
Proof.
  clear hsrc WF. intros [A B C D E] H1 H2 H3 H4 H5 H6. constructor.
  - rewrite H1, H2. auto.
  - rewrite H1, H3. intros st Hx Hf. destruct (B st Hx Hf) as [X|(n & dv & off & len & d & ap & X)]; auto. right.
    destruct (H4 _ _ _ _ X) as (k' & Y & Z). destruct k'; try tauto. eauto 10.
  - rewrite H1. intros st Hx Hf. destruct (C st Hx Hf) as (n & dv & snap & X).
    destruct (H4 _ _ _ _ X) as (k' & Y & Z). destruct k'; try tauto. eauto 10.
  - rewrite H5, H2. auto.
  - rewrite H1, H6. auto.
Qed.

Lemma same_ops_refl s s' : ops s' = ops s -> same_fetch_ops s s'.
Proof. intros E n st dv k H. exists k. rewrite E. split; auto. destruct k; auto. Qed.

Lemma same_ops_gf s s' : guest_frame s s' -> same_fetch_ops s s'.
Proof. intros E n st dv k H. exists k. split; [apply (g_ops _ _ E); auto|]. destruct k; auto. Qed.

Lemma ef_gf s s' : guest_frame s s' -> EF none s -> EF none s'.
Proof. intros G H. eapply ef_frame; eauto using same_ops_gf; apply G. Qed.

Lemma ef_fetch_completed st ok s : EF (eq st) s -> (forall b, fbuf s st = Some b -> fuse s b = true /\ b < MAX_CONCURRENT_FETCHES) ->
  st < nst c -> EF none (fetch_completed c st ok s).
Proof.
  intros [A B C D E] Hb Hst. rewrite fetch_completed_eq. cbv zeta.
  assert (R : fsts (release_buf st s) = fsts s /\ sops (release_buf st s) = sops s /\ ops (release_buf st s) = ops s /\
     fret (release_buf st s) = fret s /\ (forall x, x <> st -> fbuf (release_buf st s) x = fbuf s x) /\
     (forall b, b < MAX_CONCURRENT_FETCHES -> In b (favail (release_buf st s)) \/ exists x, fbuf (release_buf st s) x = Some b)).
  { unfold release_buf. destruct (fbuf s st) as [b|] eqn:Eb; [|auto 10].
    destruct (Hb b eq_refl) as [Hu Hl]. unfold return_fbuf. sred. rewrite Hu. destruct (Nat.ltb_spec b MAX_CONCURRENT_FETCHES); [|lia].
    cbn [andb]. sred. repeat split; auto.
    - intros x Hx. unfold upd. destruct (Nat.eqb_spec x st); congruence.
    - intros b' Hb'. destruct (Nat.eq_dec b' b) as [->|Hne]; [left; rewrite in_app_iff; cbn; auto|].
      destruct (D b' Hb') as [X|(x & X)]; [left; rewrite in_app_iff; auto|]. right. exists x. unfold upd.
      destruct (Nat.eqb_spec x st); [congruence|auto]. }
  destruct R as (R1 & R2 & R3 & R4 & R5 & R6). set (s1 := release_buf st s) in *. clearbody s1.
  assert (Hne : forall x, x <> st -> ~ st = x) by congruence.
  assert (G : forall f v (s2 : state V), fsts s2 = upd (fsts s1) st f -> f <> Some FFetching -> f <> Some FFlushing ->
     fbuf s2 = fbuf s1 -> sops s2 = sops s1 -> ops s2 = ops s1 -> favail s2 = favail s1 -> fret s2 = upd (fret s1) st v ->
     (f = Some FQueued \/ v = 0) -> EF none s2).
  { intros f v s2 G1 G2 G3 G4 G5 G6 G7 G8 G9. constructor.
    - intros x Hx. rewrite G1 in Hx. rewrite G4. unfold upd in Hx. destruct (Nat.eqb_spec x st); [tauto|]. rewrite R5 by auto. apply A. rewrite <- R1; auto.
    - intros x _ Hx. rewrite G1 in Hx. rewrite G5, G6, R2, R3. unfold upd in Hx. destruct (Nat.eqb_spec x st); [congruence|]. apply B; auto. congruence.
    - intros x _ Hx. rewrite G1 in Hx. rewrite G6, R3. unfold upd in Hx. destruct (Nat.eqb_spec x st); [congruence|]. apply C; auto. congruence.
    - intros b Hl. rewrite G7, G4. auto.
    - intros x Hx. rewrite G8. rewrite G1 in Hx. unfold upd in *. destruct (Nat.eqb_spec x st).
      + destruct G9 as [->|G9]; auto. destruct Hx; discriminate.
      + rewrite R4. apply E. rewrite <- R1; auto. }
  destruct ok.
  - eapply (G (Some FFetched) 0); try reflexivity; try discriminate; auto.
  - destruct (Nat.ltb_spec (fret s1 st) MAX_FETCH_RETRIES).
    + eapply (G (Some FQueued) _); try reflexivity; try discriminate; auto.
    + destruct (Nat.ltb_spec st (nst c)); [|lia]. eapply (G None 0); try reflexivity; try discriminate; auto.
Qed.

Lemma ef_handle_fetch st s : EF none s -> EF none (handle_fetch_request c st s).
Proof.
  intros H. unfold handle_fetch_request. destruct (st <? nst c).
  - destruct (released _); auto. destruct (fsts s st) eqn:E; auto. destruct H as [A B C D F]. constructor; sred.
    + intros x Hx. apply A. ucase; auto. destruct Hx; discriminate.
    + intros x Hx Hf. ucase; [discriminate|auto].
    + intros x Hx Hf. ucase; [discriminate|auto].
    + auto.
    + intros x Hx. ucase; auto.
  - apply (ef_frame _ s); auto. now apply same_ops_refl.
Qed.

Lemma ef_start_fetch a s : Inv s -> EF none s -> EF none (start_fetch c a s).
Proof.
  intros HI H. unfold start_fetch. destruct (fq s) as [|st q] eqn:Eq; auto. destruct (favail s) as [|b av] eqn:Ea; auto.
  cbv zeta. fold (take_buf st b q av s).
  destruct (i_F_queue _ _ _ HI) as [_ Hq]. assert (Hf : fsts s st = Some FQueued) by (apply Hq; rewrite Eq; now left).
  assert (Hnb : fbuf s st = None).
  { destruct (fbuf s st) eqn:X; auto. destruct (i_F_buf _ _ _ HI _ _ X) as [[Y|Y] _]; congruence. }
  assert (T : EF (eq st) (take_buf st b q av s)).
  { destruct H as [A B C D F]. unfold take_buf. constructor; sred.
    - intros x Hx. unfold upd. destruct (x =? st); eauto.
    - intros x Hx Hy. apply B; auto.
    - intros x Hx Hy. apply C; auto.
    - intros b' Hb'. destruct (D b' Hb') as [X|(x & X)].
      + rewrite Ea in X. destruct X as [<-|X]; auto. right. exists st. unfold upd. now rewrite Nat.eqb_refl.
      + right. exists x. unfold upd. destruct (Nat.eqb_spec x st); congruence.
    - auto. }
  destruct (source_accepts c a st (take_buf st b q av s)).
  - destruct T as [A B C D F]. unfold take_buf in *. constructor; sred.
    + intros x Hx. destruct (Nat.eq_dec x st) as [->|Hne]; [exists b; unfold upd; now rewrite Nat.eqb_refl|]. apply A.
      unfold upd in Hx. destruct (Nat.eqb_spec x st); [congruence|auto].
    + intros x _ Hx. unfold upd in Hx. destruct (Nat.eqb_spec x st).
      * subst. left. exists (next s), b. unfold upd. now rewrite Nat.eqb_refl.
      * destruct (B x) as [(n' & b' & X)|X]; auto. left. exists n', b'. unfold upd. destruct (Nat.eqb_spec n' (next s)); auto.
        subst. pose proof (i_N_sops _ _ _ HI _ _ X). lia.
    + intros x _ Hx. unfold upd in Hx. destruct (Nat.eqb_spec x st); [discriminate|]. apply C; auto.
    + auto.
    + intros x Hx. unfold upd in Hx. destruct (Nat.eqb_spec x st); [destruct Hx; discriminate|auto].
  - apply ef_fetch_completed; auto.
    + intros b'. unfold take_buf. sred. unfold upd at 1. rewrite Nat.eqb_refl. intros X. injection X as <-. unfold upd. rewrite Nat.eqb_refl.
      split; auto. apply (i_F_pool _ _ _ HI). rewrite Ea. now left.
    + apply (i_F_range _ _ _ HI st _ Hf).
Qed.

Lemma ef_ex_mono (ex ex' : nat -> Prop) s : (forall st, ex st -> ex' st) -> EF ex s -> EF ex' s.
Proof. intros H [A B C D F]. constructor; auto. Qed.

Lemma ef_src_done n ok s : Inv s -> EF none s -> EF none (src_done c n ok s).
Proof.
  intros HI H. unfold src_done. destruct (sops s n) as [[st b]|] eqn:Es; auto. cbv zeta.
  destruct (i_F_sop _ _ _ HI _ _ _ Es) as [Hf Hb]. destruct (i_F_buf _ _ _ HI _ _ Hb) as (_ & Hu & Hl).
  destruct (i_F_range _ _ _ HI _ _ Hf) as [Hst _].
  set (s1 := set_sops (upd (sops s) n None) s).
  assert (H1 : EF (eq st) s1).
  { destruct H as [A B C D F]. constructor; auto.
    intros x Hx Hy. destruct (B x) as [(n' & b' & X)|X]; auto. left. exists n', b'. unfold s1. sred. unfold upd.
    destruct (Nat.eqb_spec n' n); auto. congruence. }
  set (s2 := if ok then set_bufs (upd (bufs s1) b (filled c st (bufs s1 b))) s1 else s1).
  assert (H2 : EF (eq st) s2) by (unfold s2; destruct ok; auto; apply (ef_frame _ s1); auto; now apply same_ops_refl).
  assert (E2 : fbuf s2 st = Some b /\ fuse s2 = fuse s /\ fsts s2 = fsts s /\ next s2 = next s /\ ops s2 = ops s) by (unfold s2; destruct ok; auto 10).
  clearbody s2. destruct E2 as (E2 & E3 & E4 & E5 & E6). rewrite E2. destruct ok.
  - unfold start_write. cbv zeta. pose proof (wf_target _ WF st Hst). destruct (Nat.ltb_spec (target c) (st * ssc c)); [lia|].
    destruct H2 as [A B C D F]. constructor; sred; auto.
    + intros x _ Hx. destruct (Nat.eq_dec x st) as [->|Hne].
      * right. exists (next s2). unfold upd. rewrite Nat.eqb_refl. do 5 eexists. reflexivity.
      * destruct (B x) as [X|(n' & dv & off & len & d & ap & X)]; auto. right. exists n', dv, off, len, d, ap. unfold upd.
        destruct (Nat.eqb_spec n' (next s2)); auto. rewrite E6 in X. pose proof (i_N_ops _ _ _ HI _ _ X). lia.
    + intros x _ Hx. destruct (Nat.eq_dec x st) as [->|Hne]; [congruence|].
      destruct (C x) as (n' & dv & sn & X); auto. exists n', dv, sn. unfold upd.
      destruct (Nat.eqb_spec n' (next s2)); auto. rewrite E6 in X. pose proof (i_N_ops _ _ _ HI _ _ X). lia.
  - apply ef_fetch_completed; auto. intros b' X. rewrite E2 in X. injection X as <-. rewrite E3. auto.
Qed.

Lemma ef_op_done n ok s : Inv s -> EF none s -> EF none (fst (op_done c n ok s)).
Proof.
  intros HI H. unfold op_done. destruct (ops s n) as [[o dv k]|] eqn:Eo; auto. destruct (ok && _); auto. cbv zeta.
  set (s2 := if ok then complete_medium n k (set_ops (upd (ops s) n None) s) else set_ops (upd (ops s) n None) s).
  assert (E2 : ops s2 = upd (ops s) n None /\ fsts s2 = fsts s /\ fbuf s2 = fbuf s /\ fuse s2 = fuse s /\ sops s2 = sops s /\
    favail s2 = favail s /\ fret s2 = fret s /\ next s2 = next s) by (unfold s2, complete_medium; destruct ok, k; auto 10).
  clearbody s2. destruct E2 as (E1 & E2 & E3 & E4 & E5 & E6 & E7 & E8). destruct o as [q id|st].
  - cbn [fst]. apply (ef_frame _ s); auto. intros m st dv' k' X. exists k'. rewrite E1. unfold upd.
    destruct (Nat.eqb_spec m n); [congruence|]. split; auto. destruct k'; auto.
  - destruct (wdone s); auto. cbn [fst].
    assert (H2 : EF (eq st) s2).
    { destruct H as [A B C D F]. constructor; rewrite ?E2, ?E3, ?E5, ?E6, ?E7; auto.
      - intros x Hx Hy. destruct (B x) as [X|(n' & dv' & off & len & d & ap & X)]; auto. right. exists n', dv', off, len, d, ap.
        rewrite E1. unfold upd. destruct (Nat.eqb_spec n' n); auto. congruence.
      - intros x Hx Hy. destruct (C x) as (n' & dv' & sn & X); auto. exists n', dv', sn.
        rewrite E1. unfold upd. destruct (Nat.eqb_spec n' n); auto. congruence. }
    destruct (i_F_op _ _ _ HI _ _ _ _ Eo) as [_ Hk].
    assert (Hfs : fsts s st = Some FFetching \/ fsts s st = Some FFlushing) by (destruct k; tauto).
    assert (Hst : st < nst c) by (destruct Hfs as [X|X]; apply (i_F_range _ _ _ HI _ _ X)).
    assert (Hbuf : forall b, fbuf s2 st = Some b -> fuse s2 b = true /\ b < MAX_CONCURRENT_FETCHES).
    { intros b. rewrite E3, E4. intros X. apply (i_F_buf _ _ _ HI _ _ X). }
    unfold tgt_done. destruct ok; [|apply ef_fetch_completed; auto].
    rewrite E2. destruct (fsts s st) as [[| | |]|] eqn:Ef; try (destruct Hfs; discriminate).
    + unfold start_flush. cbv zeta. destruct H2 as [A B C D F]. constructor; sred; rewrite ?E2 in *.
      * intros x Hx. apply A. ucase; auto.
      * intros x _ Hx. unfold upd in Hx. destruct (Nat.eqb_spec x st); [discriminate|].
        destruct (B x) as [X|(n' & dv' & off & len & d & ap & X)]; auto. right. exists n', dv', off, len, d, ap. unfold upd.
        destruct (Nat.eqb_spec n' (next s2)); auto. rewrite E1 in X. unfold upd in X. destruct (n' =? n); [discriminate|].
        pose proof (i_N_ops _ _ _ HI _ _ X). lia.
      * intros x _ Hx. unfold upd in Hx. destruct (Nat.eqb_spec x st).
        -- subst. exists (next s2). unfold upd. rewrite Nat.eqb_refl. eauto.
        -- destruct (C x) as (n' & dv' & sn & X); auto. exists n', dv', sn. unfold upd.
           destruct (Nat.eqb_spec n' (next s2)); auto. rewrite E1 in X. unfold upd in X. destruct (n' =? n); [discriminate|].
           pose proof (i_N_ops _ _ _ HI _ _ X). lia.
      * auto.
      * intros x Hx. unfold upd in Hx. destruct (Nat.eqb_spec x st); [destruct Hx; discriminate|auto].
    + apply ef_fetch_completed; auto.
Qed.

Lemma ef_boot n hist mhist bd md : EF none (boot c n hist mhist bd md).
Proof.
  clear hsrc WF. constructor; unfold boot; cbv zeta; sred; try discriminate.
  - intros st [X|X]; discriminate.
  - intros b Hb. left. apply in_seq. lia.
  - auto.
Qed.

(** ** The metadata flusher *)
Record EM (ex : nat -> Prop) (s : state V) : Prop := {
  em_op : forall st u, ~ ex st -> mupd s st = Some u ->
    exists n, match u_stage u with
              | MWriting => exists g ap, mops s n = Some (MWrite st g (u_buf u) ap)
              | MFlushing => exists snap, mops s n = Some (MFlush st snap)
              end;
  em_pool : forall b, b < MAX_CONCURRENT_CHANGES ->
    In b (mavail s) \/ exists st u, mupd s st = Some u /\ u_stage u = MWriting /\ u_buf u = b;
  em_flagF : forall st, st < nst c -> has_flag FLAG_FETCHED (hdrs s st) = true ->
    shf s st = Fetched \/ exists u, mupd s st = Some u /\ u_mask u = FLAG_FETCHED;
  em_flagW : forall st, st < nst c -> has_flag FLAG_WRITTEN (hdrs s st) = true ->
    shw s st = true \/ exists u, mupd s st = Some u /\ u_mask u = FLAG_WRITTEN
}.

Lemma em_frame ex s s' : EM ex s -> mupd s' = mupd s -> mops s' = mops s -> mavail s' = mavail s -> hdrs s' = hdrs s ->
  (forall st, shf s st = Fetched -> shf s' st = Fetched) -> shw s' = shw s -> EM ex s'.
Proof.
  intros [A B C D] H1 H2 H3 H4 H5 H6. constructor; rewrite ?H1, ?H2, ?H3, ?H4, ?H6; auto.
  intros st Hst Hf. destruct (C st Hst Hf); auto.
Qed.

Lemma em_gf s s' : guest_frame s s' -> EM none s -> EM none s'.
Proof. intros G H. eapply em_frame; eauto; try apply G. intros st. rewrite (g_shf _ _ G). auto. Qed.

Lemma em_fetch_completed st ok s : released (shf s st) = false -> EM none s -> EM none (fetch_completed c st ok s).
Proof.
  intros Hr H. rewrite fetch_completed_eq. cbv zeta.
  assert (R : EM none (release_buf st s) /\ shf (release_buf st s) = shf s).
  { unfold release_buf. destruct (fbuf s st); auto. unfold return_fbuf. sred. destruct (_ && _); split; auto; apply (em_frame _ s); auto. }
  destruct R as [R1 R2]. set (s1 := release_buf st s) in *. clearbody s1.
  destruct ok; [apply (em_frame _ s1); auto|]. destruct (_ <? _); [apply (em_frame _ s1); auto|].
  destruct (_ <? _); apply (em_frame _ s1); auto. sred. intros x Hx. unfold upd. destruct (Nat.eqb_spec x st); auto.
  subst. rewrite R2 in Hx. rewrite Hx in Hr. discriminate.
Qed.

Lemma em_start_meta_write s : Inv s -> EM none s -> EM none (start_meta_write c s).
Proof.
  intros HI H. unfold start_meta_write. destruct (mqueue s) as [|[st k] q] eqn:Eq; auto.
  destruct (mavail s) as [|b av] eqn:Ea; auto. cbv zeta. destruct (existsb (Nat.eqb (group_of c st)) (msec s)) eqn:Eg; auto.
  destruct (Nat.ltb_spec st (nst c)) as [Hst|Hst]; [|apply (em_frame _ s); auto].
  destruct (has_flag (mask_of k) (hdrs (set_mqueue q s) st)) eqn:Ef; [apply (em_frame _ s); auto|].
  assert (Hnu : mupd s st = None).
  { destruct (mupd s st) as [u|] eqn:Eu; auto. destruct (i_M_upd _ _ _ HI _ _ Eu) as (_ & _ & X & _).
    assert (existsb (Nat.eqb (group_of c st)) (msec s) = true); [|congruence]. apply existsb_exists. exists (group_of c st). rewrite Nat.eqb_refl. auto. }
  destruct H as [A B C D]. constructor; sred.
  - intros x u _ Hx. unfold upd in Hx. destruct (Nat.eqb_spec x st).
    + injection Hx as <-. subst. exists (next s). cbn [u_stage u_buf]. exists (group_of c st), false. unfold upd. now rewrite Nat.eqb_refl.
    + destruct (A x u) as (n' & X); auto. exists n'. assert (n' <> next s).
      { intros ->. destruct (u_stage u); [destruct X as (? & ? & X)|destruct X as (? & X)]; pose proof (i_N_mops _ _ _ HI _ _ X); lia. }
      unfold upd. destruct (Nat.eqb_spec n' (next s)); [congruence|auto].
  - intros b' Hb'. destruct (B b' Hb') as [X|(x & u & X & Y)].
    + rewrite Ea in X. destruct X as [<-|X]; auto. right. exists st. unfold upd. rewrite Nat.eqb_refl. eauto.
    + right. exists x, u. unfold upd. destruct (Nat.eqb_spec x st); [congruence|auto].
  - intros x Hx Hf. unfold upd in Hf. unfold upd. destruct (Nat.eqb_spec x st).
    + subst. destruct k; cbn [mask_of] in *; [right; eauto|]. rewrite has_flag_lor_other in Hf by reflexivity.
      destruct (C st Hst Hf) as [|(u & X & _)]; auto. congruence.
    + auto.
  - intros x Hx Hf. unfold upd in Hf. unfold upd. destruct (Nat.eqb_spec x st).
    + subst. destruct k; cbn [mask_of] in *; [|right; eauto]. rewrite has_flag_lor_other in Hf by reflexivity.
      destruct (D st Hst Hf) as [|(u & X & _)]; auto. congruence.
    + auto.
Qed.

Lemma em_meta_apply n s : EM none s -> EM none (meta_apply n s).
Proof.
  intros [A B C D]. unfold meta_apply. destruct (mops s n) as [[st g b [|]|]|] eqn:Eo; try (constructor; auto; fail).
  constructor; sred; auto. intros x u _ Hx. destruct (A x u) as (n' & X); auto. exists n'. unfold upd.
  destruct (Nat.eqb_spec n' n); auto. subst. rewrite Eo in X. destruct (u_stage u); [destruct X as (? & ? & X)|destruct X as (? & X)]; [|discriminate].
  injection X as <- <- <- <-. eauto.
Qed.

Lemma em_meta_completion st ok s : Inv s -> EM (eq st) s -> (forall n, next s <= n -> mops s n = None) -> EM none (meta_completion c st ok s).
Proof.
  intros HI H Hmn. unfold meta_completion. destruct (mupd s st) as [u|] eqn:Eu.
  2:{ destruct H as [A B C D]. constructor; auto. intros x u _ Hx. apply A; auto. congruence. }
  destruct (i_M_upd _ _ _ HI _ _ Eu) as (Hst & Hsec & _ & Hhd & Hm1 & Hm2).
  destruct ok.
  - destruct (u_stage u) eqn:Es.
    + unfold meta_written. rewrite (return_mbuf_ok _ _ _ _ _ HI Eu Es). cbv zeta. destruct H as [A B C D]. constructor; sred.
      * intros x u' _ Hx. unfold upd in Hx. destruct (Nat.eqb_spec x st).
        -- injection Hx as <-. subst. exists (next s). cbn. unfold upd. rewrite Nat.eqb_refl. eauto.
        -- destruct (A x u') as (n' & X); auto. exists n'. assert (n' <> next s).
           { intros ->. rewrite Hmn in X by lia. destruct (u_stage u'); [destruct X as (? & ? & X)|destruct X as (? & X)]; discriminate. }
           unfold upd. destruct (Nat.eqb_spec n' (next s)); [congruence|auto].
      * intros b' Hb'. rewrite in_app_iff. destruct (B b' Hb') as [X|(x & u' & X & Y & Z)]; auto.
        destruct (Nat.eq_dec x st) as [->|Hne].
        -- left. right. left. rewrite Eu in X. injection X as <-. auto.
        -- right. exists x, u'. unfold upd. destruct (Nat.eqb_spec x st); [congruence|auto].
      * intros x Hx Hf. unfold upd. destruct (C x Hx Hf) as [|(u' & X & Y)]; auto. right. destruct (Nat.eqb_spec x st); eauto.
        subst. rewrite Eu in X. injection X as <-. eexists. split; [reflexivity|]. auto.
      * intros x Hx Hf. unfold upd. destruct (D x Hx Hf) as [|(u' & X & Y)]; auto. right. destruct (Nat.eqb_spec x st); eauto.
        subst. rewrite Eu in X. injection X as <-. eexists. split; [reflexivity|]. auto.
    + unfold meta_flushed. cbv zeta. unfold set_stripe_header. destruct (Nat.ltb_spec st (nst c)); [|lia].
      assert (G : forall s3 : state V, mupd s3 = upd (mupd s) st None -> mops s3 = mops s -> mavail s3 = mavail s -> hdrs s3 = hdrs s ->
         (forall x, x <> st -> shf s x = Fetched -> shf s3 x = Fetched) -> (forall x, x <> st -> shw s x = true -> shw s3 x = true) ->
         (has_flag FLAG_FETCHED (hdrs s st) = true -> shf s3 st = Fetched) -> (has_flag FLAG_WRITTEN (hdrs s st) = true -> shw s3 st = true) -> EM none s3).
      { intros s3 G1 G2 G3 G4 G5 G6 G7 G8. destruct H as [A B C D]. constructor; rewrite ?G1, ?G2, ?G3, ?G4.
        - intros x u' _ Hx. unfold upd in Hx. destruct (Nat.eqb_spec x st); [discriminate|]. apply A; auto.
        - intros b' Hb'. destruct (B b' Hb') as [X|(x & u' & X & Y & Z)]; auto. right. exists x, u'. unfold upd.
          destruct (Nat.eqb_spec x st); [congruence|auto].
        - intros x Hx Hf. unfold upd. destruct (Nat.eqb_spec x st); [subst; auto|]. destruct (C x Hx Hf); auto.
        - intros x Hx Hf. unfold upd. destruct (Nat.eqb_spec x st); [subst; auto|]. destruct (D x Hx Hf); auto. }
      rewrite Hhd. apply G.
      all: destruct (has_flag FLAG_FETCHED (hdrs s st)) eqn:F1, (has_flag FLAG_WRITTEN (hdrs s st)) eqn:F2; sred; try destruct (released (shf s st)); sred; try reflexivity; try discriminate; auto.
      all: try (intros x Hx Hy; unfold upd; destruct (Nat.eqb_spec x st); congruence).
      all: try (intros _; unfold upd; rewrite Nat.eqb_refl; reflexivity).
  - unfold meta_failed. cbv zeta.
    set (s1 := set_hdrs (upd (hdrs s) st (N.ldiff (hdrs s st) (u_mask u))) s).
    set (s2 := match u_stage u with MWriting => return_mbuf (u_buf u) s1 | MFlushing => s1 end).
    assert (E2 : mupd s2 = mupd s /\ mops s2 = mops s /\ hdrs s2 = hdrs s1 /\ shf s2 = shf s /\ shw s2 = shw s /\
       forall b, In b (mavail s) \/ (u_stage u = MWriting /\ u_buf u = b) -> In b (mavail s2)).
    { unfold s2. destruct (u_stage u) eqn:Es.
      - destruct (i_M_ubuf _ _ _ HI _ _ Eu Es) as [X Y]. unfold return_mbuf. change (muse s1) with (muse s). rewrite X.
        destruct (Nat.ltb_spec (u_buf u) MAX_CONCURRENT_CHANGES); [|lia]. cbn [andb]. sred. repeat split; auto.
        intros b Hb. rewrite in_app_iff. cbn. destruct Hb as [|[_ ?]]; auto.
      - repeat split; auto. intros b [|[? _]]; auto. discriminate. }
    clearbody s2. destruct E2 as (E1 & E2 & E3 & E4 & E5 & E6). destruct H as [A B C D].
    constructor; sred; rewrite ?E1, ?E2, ?E3, ?E4, ?E5; unfold s1; sred.
    + intros x u' _ Hx. unfold upd in Hx. destruct (Nat.eqb_spec x st); [discriminate|]. apply A; auto.
    + intros b' Hb'. destruct (B b' Hb') as [X|(x & u' & X & Y & Z)]; auto. destruct (Nat.eq_dec x st) as [->|Hne].
      * left. apply E6. right. rewrite Eu in X. injection X as <-. auto.
      * right. exists x, u'. unfold upd. destruct (Nat.eqb_spec x st); [congruence|auto].
    + intros x Hx Hf. unfold upd in Hf. unfold upd. destruct (Nat.eqb_spec x st); [|auto]. subst.
      destruct Hm2 as [[Hm2 _]|[Hm2 _]]; rewrite Hm2 in Hf.
      * exfalso. unfold has_flag in Hf. rewrite N.land_ldiff in Hf. discriminate.
      * rewrite has_flag_ldiff_other in Hf by reflexivity. destruct (C st Hx Hf) as [|(u' & X & Y)]; auto.
        rewrite Eu in X. injection X as <-. rewrite Hm2 in Y. discriminate.
    + intros x Hx Hf. unfold upd in Hf. unfold upd. destruct (Nat.eqb_spec x st); [|auto]. subst.
      destruct Hm2 as [[Hm2 _]|[Hm2 _]]; rewrite Hm2 in Hf.
      * rewrite has_flag_ldiff_other in Hf by reflexivity. destruct (D st Hx Hf) as [|(u' & X & Y)]; auto.
        rewrite Eu in X. injection X as <-. rewrite Hm2 in Y. discriminate.
      * exfalso. unfold has_flag in Hf. rewrite N.land_ldiff in Hf. discriminate.
Qed.
End Inv2.
