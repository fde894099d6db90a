(** Metadata-flusher steps, startup and crashes preserve the invariant. *)
From Coq Require Import List Arith NArith Bool Lia ZifyBool ZifyNat.
Import ListNotations.
From Verif Require Import Base BaseFacts DiskSpec LazyState MetadataModel LazyModel LazyInv LazyTac LazyInvFetch.

(** ** Flags *)

Lemma has_flag_lor_other f m h : N.land m f = 0%N -> has_flag f (N.lor h m) = has_flag f h.
Proof. intros E. unfold has_flag. rewrite N.land_lor_distr_l, E, N.lor_0_r. reflexivity. Qed.

Lemma has_flag_lor_mono f m h : has_flag f h = true -> has_flag f (N.lor h m) = true.
Proof.
  unfold has_flag. rewrite !negb_true_iff, !N.eqb_neq, N.land_lor_distr_l. intros A B. apply A.
  apply N.lor_eq_0_iff in B. tauto.
Qed.

Lemma has_flag_lor_self m h : m <> 0%N -> has_flag m (N.lor h m) = true.
Proof.
  unfold has_flag. rewrite negb_true_iff, N.eqb_neq, N.land_lor_distr_l, N.land_diag. intros A B. apply A.
  apply N.lor_eq_0_iff in B. tauto.
Qed.

Lemma has_flag_ldiff_other f m h : N.land m f = 0%N -> has_flag f (N.ldiff h m) = has_flag f h.
Proof.
  intros E. unfold has_flag. f_equal. f_equal. apply N.bits_inj. intros k.
  rewrite !N.land_spec, N.ldiff_spec. apply (f_equal (fun x => N.testbit x k)) in E.
  rewrite N.land_spec, N.bits_0 in E. destruct (N.testbit h k), (N.testbit m k), (N.testbit f k); cbn in *; congruence.
Qed.

Lemma has_flag_ldiff_weak f m h : has_flag f (N.ldiff h m) = true -> has_flag f h = true.
Proof.
  unfold has_flag. rewrite !negb_true_iff, !N.eqb_neq. intros A B. apply A. apply N.bits_inj. intros k.
  apply (f_equal (fun x => N.testbit x k)) in B. rewrite N.land_spec, N.bits_0 in *. rewrite N.ldiff_spec.
  destruct (N.testbit h k), (N.testbit m k), (N.testbit f k); cbn in *; congruence.
Qed.

Lemma in_trim {A} snap (e : nat * A) l : In e (trim snap l) -> In e l.
Proof.
  induction l as [|a l IH]; cbn; auto. destruct (snap (fst a)); cbn; tauto.
Qed.

Section MetaInv.
Context {V : Type}.
Variable c : cfg V.
Variable hsrc : nat -> bool.
Hypothesis WF : wf c.

Notation Inv := (Inv c hsrc).

Lemma mops_next (s : state V) n : Inv s -> next s <= n -> mops s n = None.
Proof. intros HI H. destruct (mops s n) eqn:E; auto. pose proof (i_N_mops _ _ _ HI _ _ E). lia. Qed.

Lemma in_remove_sector g g' l : In g' (remove_sector g l) <-> In g' l /\ g' <> g.
Proof.
  unfold remove_sector. rewrite filter_In, negb_true_iff, Nat.eqb_neq. tauto.
Qed.

(** ** Starting a header update *)

Lemma inv_start_meta_write s : Inv s -> Inv (start_meta_write c s).
Proof.
  intros HI. unfold start_meta_write. destruct (mqueue s) as [|[st k] q] eqn:Eq; auto.
  destruct (mavail s) as [|b av] eqn:Ea; auto. cbv zeta.
  destruct (existsb (Nat.eqb (group_of c st)) (msec s)) eqn:Eg; auto.
  assert (Hg : ~ In (group_of c st) (msec s)).
  { intros Hi. rewrite <- not_true_iff_false in Eg. apply Eg. apply existsb_exists. exists (group_of c st).
    rewrite Nat.eqb_refl. auto. }
  clear Eg. pose proof (i_M_queue _ _ _ HI) as Hq. unfold M_queue in Hq. rewrite Eq in Hq.
  destruct (Hq st k) as [Hst Hk]; [cbn; auto|].
  assert (HI1 : Inv (set_mqueue q s)).
  { apply inv_set_mqueue; auto. intros x k' Hx. apply Hq. cbn; auto. }
  destruct (Nat.ltb_spec st (nst c)); [|lia].
  set (s1 := set_mqueue q s) in *.
  assert (Hg1 : ~ In (group_of c st) (msec s1)) by exact Hg.
  assert (Ea1 : mavail s1 = b :: av) by exact Ea.
  assert (Hk1 : k = SetFetched -> fsts s1 st = Some FFetched) by exact Hk.
  clearbody s1. clear HI Hq Hk Hg Ea Eq s q. rename s1 into s, HI1 into HI, Hg1 into Hg, Ea1 into Ea, Hk1 into Hk.
  destruct (has_flag (mask_of k) (hdrs s st)) eqn:Ef; auto.
  destruct (i_M_pool _ _ _ HI) as [Hpd Hp]. rewrite Ea in Hpd, Hp. inversion_clear Hpd as [|? ? Hnp Hpd'].
  destruct (Hp b) as [Hbu Hb]; [cbn; auto|].
  set (h := N.lor (hdrs s st) (mask_of k)).
  assert (Hother : forall st' u, mupd s st' = Some u -> group_of c st' <> group_of c st).
  { intros st' u H' E. destruct (i_M_upd _ _ _ HI _ _ H') as (_ & _ & A & _). congruence. }
  assert (Hne : forall st' u, mupd s st' = Some u -> st' <> st).
  { intros st' u H' ->. eapply Hother; eauto. }
  assert (Hbne : forall st' u, mupd s st' = Some u -> u_stage u = MWriting -> u_buf u <> b).
  { intros st' u H' Hs E. destruct (i_M_ubuf _ _ _ HI _ _ H' Hs). congruence. }
  assert (Hagr : forall g v, g <> group_of c st -> agrees c g v (hdrs s) -> agrees c g v (upd (hdrs s) st h)).
  { intros g v Hgg A x Hx Ex. unfold upd. destruct (Nat.eqb_spec x st); [congruence|]. apply A; auto. }
  assert (Hmop : forall n o, mops s n = Some o -> exists u, mupd s (mop_stripe o) = Some u).
  { intros n o Ho. destruct o as [st' g b' ap|st' snap].
    - destruct (i_M_write _ _ _ HI _ _ _ _ _ Ho) as (_ & (u & Hu & _) & _). exists u; auto.
    - destruct (i_M_flush _ _ _ HI _ _ _ Ho) as ((u & Hu & _) & _). exists u; auto. }
  assert (HsrcF : N.land (mask_of k) FLAG_HAS_SOURCE = 0%N) by (destruct k; reflexivity).
  constructor; try frame HI.
  - red. cbn. lia.
  - intros n o H'. sred. pose proof (i_N_ops _ _ _ HI _ _ H'). lia.
  - intros n o H'. sred. pose proof (i_N_sops _ _ _ HI _ _ H'). lia.
  - intros n o H'. sred. ucase; [lia|]. pose proof (i_N_mops _ _ _ HI _ _ H'). lia.
  - intros n H'. sred. pose proof (i_N_bd _ _ _ HI _ H'). lia.
  - intros x Hx. sred. destruct (i_M_src _ _ _ HI x Hx) as [A B]. split; auto. ucase; auto.
    subst h. rewrite has_flag_lor_other; auto.
  - intros x Hx H'. sred. unfold upd in H'. destruct (Nat.eqb_spec x st) as [->|];
      [|exact (i_M_safe _ _ _ HI x Hx H')].
    destruct k.
    + specialize (Hk eq_refl). split; [|auto]. exact (proj2 (i_F_range _ _ _ HI _ _ Hk)).
    + apply (i_M_safe _ _ _ HI st Hx). destruct H' as [H'|H']; auto. left.
      subst h. rewrite has_flag_lor_other in H'; auto.
  - intros x H'. sred. destruct (i_M_ackF _ _ _ HI x H') as [A B]. split; auto. ucase; auto.
    apply has_flag_lor_mono; auto.
  - intros x H'. sred. destruct (i_M_ackW _ _ _ HI x H') as (A & B & C). repeat split; auto. ucase; auto.
    apply has_flag_lor_mono; auto.
  - intros x u H'. sred. unfold upd in H'. destruct (Nat.eqb_spec x st) as [->|].
    + injection H' as <-. cbn. repeat split; auto.
      * unfold upd. rewrite Nat.eqb_refl. auto.
      * unfold upd. rewrite Nat.eqb_refl. apply has_flag_lor_self. destruct k; discriminate.
      * destruct k; [left|right]; split; auto.
        -- intros E. destruct (i_M_ackF _ _ _ HI _ E). cbn in Ef. congruence.
        -- destruct (shw s st) eqn:E; auto. destruct (i_M_ackW _ _ _ HI _ E) as (_ & ? & _). cbn in Ef. congruence.
    + destruct (i_M_upd _ _ _ HI x u H') as (A1 & A2 & A3 & A4 & A5 & A6). repeat split; auto.
      * cbn; auto.
      * unfold upd. destruct (Nat.eqb_spec x st); congruence.
      * unfold upd. destruct (Nat.eqb_spec x st); congruence.
  - intros x y u u' H1 H2 E. sred. unfold upd in H1, H2. destruct (Nat.eqb_spec x st), (Nat.eqb_spec y st); try congruence.
    + subst. exfalso. exact (Hother _ _ H2 (eq_sym E)).
    + subst. exfalso. exact (Hother _ _ H1 E).
    + exact (i_M_upd_uniq _ _ _ HI _ _ _ _ H1 H2 E).
  - intros g' Hi. sred. destruct Hi as [<-|Hi].
    + exists st. eexists. unfold upd. rewrite Nat.eqb_refl. eauto.
    + destruct (i_M_sec _ _ _ HI _ Hi) as (x & u & Hu & E). exists x, u. split; auto.
      unfold upd. destruct (Nat.eqb_spec x st); auto. subst. exfalso. eapply Hother; eauto.
  - intros x u H' Hs. sred. unfold upd in H'. destruct (Nat.eqb_spec x st) as [->|].
    + injection H' as <-. cbn. unfold upd. rewrite Nat.eqb_refl. auto.
    + destruct (i_M_ubuf _ _ _ HI _ _ H' Hs). split; auto. unfold upd. destruct (Nat.eqb_spec (u_buf u) b); auto.
  - intros x y u u' H1 H2 S1 S2 E. sred. unfold upd in H1, H2.
    destruct (Nat.eqb_spec x st), (Nat.eqb_spec y st); try congruence.
    + injection H1 as <-. cbn in E. exfalso. eapply (Hbne _ _ H2 S2); auto.
    + injection H2 as <-. cbn in E. exfalso. eapply (Hbne _ _ H1 S1); auto.
    + exact (i_M_ubufinj _ _ _ HI _ _ _ _ H1 H2 S1 S2 E).
  - split; sred; auto. intros b' Hi. destruct (Hp b') as [A B]; [cbn; auto|]. split; auto.
    unfold upd. destruct (Nat.eqb_spec b' b); auto. subst. tauto.
  - intros n x g b' ap H'. sred. unfold upd in H' at 1. destruct (Nat.eqb_spec n (next s)).
    + injection H' as <- <- <- <-. split; [auto|]. split; [|split; [|discriminate]].
      * eexists. split; [unfold upd; rewrite Nat.eqb_refl; reflexivity|]. auto.
      * intros y Hy Ey. unfold upd at 1. rewrite Nat.eqb_refl. auto.
    + destruct (i_M_write _ _ _ HI _ _ _ _ _ H') as (-> & (u & Hu & Hs & Eb) & A & B). split; auto. split; [|split].
      * exists u. split; auto. unfold upd. destruct (Nat.eqb_spec x st); auto. exfalso. eapply Hne; eauto.
      * unfold upd at 1. destruct (Nat.eqb_spec b' b); [exfalso; subst; eapply Hbne; eauto|].
        apply Hagr; auto. eapply Hother; eauto.
      * intros Hap. destruct (B Hap) as (v & l & E & A'). exists v, l. split; auto. apply Hagr; auto. eapply Hother; eauto.
  - intros n x snap H'. sred. unfold upd in H' at 1. destruct (Nat.eqb_spec n (next s)); [discriminate|].
    destruct (i_M_flush _ _ _ HI _ _ _ H') as ((u & Hu & Hs) & w & v & l & A & B & C). split.
    + exists u. split; auto. unfold upd. destruct (Nat.eqb_spec x st); auto. exfalso. eapply Hne; eauto.
    + exists w, v, l. repeat split; auto. apply Hagr; auto. eapply Hother; eauto.
  - intros n m o o' H1 H2 E. sred. unfold upd in H1, H2.
    destruct (Nat.eqb_spec n (next s)), (Nat.eqb_spec m (next s)); try congruence.
    + injection H1 as <-. destruct (Hmop _ _ H2) as (u & Hu). exfalso. apply (Hne _ _ Hu). rewrite <- E. reflexivity.
    + injection H2 as <-. destruct (Hmop _ _ H1) as (u & Hu). exfalso. apply (Hne _ _ Hu). rewrite E. reflexivity.
    + exact (i_M_uniq _ _ _ HI _ _ _ _ H1 H2 E).
Qed.

(** ** The metadata device *)

Lemma inv_meta_apply n s : Inv s -> Inv (meta_apply n s).
Proof.
  intros HI. unfold meta_apply. destruct (mops s n) as [[st g b [|]|]|] eqn:Eo; auto.
  destruct (i_M_write _ _ _ HI _ _ _ _ _ Eo) as (-> & (u & Hu & Hs & Eb) & A & _).
  assert (Hent : forall x, x < nst c -> group_of c x = group_of c st -> mbufs s b x = hdrs s x) by (intros; apply A; auto).
  constructor; try frame HI.
  - intros m o H. sred. ucase; [|exact (i_N_mops _ _ _ HI _ _ H)]. exact (i_N_mops _ _ _ HI _ _ Eo).
  - intros g' H. sred. ucase; [discriminate|]. eapply (i_M_nonempty _ _ _ HI); eauto.
  - intros x Hx. sred. destruct (i_M_src _ _ _ HI x Hx) as [B C]. split; auto. intros e Hi.
    unfold upd in Hi. destruct (Nat.eqb_spec (group_of c x) (group_of c st)) as [Eg|]; auto.
    destruct Hi as [<-|Hi]; [cbn; rewrite Hent; auto|]. apply C. rewrite Eg. auto.
  - intros x Hx H. sred. apply (i_M_safe _ _ _ HI x Hx). destruct H as [H|(e & Hi & He)]; auto.
    unfold upd in Hi. destruct (Nat.eqb_spec (group_of c x) (group_of c st)) as [Eg|]; [|eauto].
    destruct Hi as [<-|Hi]; [left; cbn in He; rewrite Hent in He; auto|]. right. exists e. rewrite Eg. auto.
  - intros x H. sred. destruct (i_M_ackF _ _ _ HI x H) as [B C]. split; auto. intros e Hi.
    unfold upd in Hi. destruct (Nat.eqb_spec (group_of c x) (group_of c st)) as [Eg|]; auto.
    destruct Hi as [<-|Hi]; [|apply C; rewrite Eg; auto]. cbn. rewrite Hent; auto.
    destruct (Nat.ltb_spec x (nst c)); auto. pose proof (proj2 (i_M_shf _ _ _ HI x)). intuition congruence.
  - intros x H. sred. destruct (i_M_ackW _ _ _ HI x H) as (Hx & B & C). split; [auto|split; auto]. intros e Hi.
    unfold upd in Hi. destruct (Nat.eqb_spec (group_of c x) (group_of c st)) as [Eg|]; auto.
    destruct Hi as [<-|Hi]; [|apply C; rewrite Eg; auto]. cbn. rewrite Hent; auto.
  - intros m x g b' ap H. sred. unfold upd in H at 1. destruct (Nat.eqb_spec m n) as [->|].
    + injection H as <- <- <- <-. split; auto. split; [exists u; auto|]. split; auto. intros _.
      exists (mbufs s b), (mh s (group_of c st)). unfold upd. rewrite Nat.eqb_refl. auto.
    + destruct (i_M_write _ _ _ HI _ _ _ _ _ H) as (-> & (u' & Hu' & Hs' & Eb') & A' & B').
      split; auto. split; [exists u'; auto|]. split; auto. intros Hap. destruct (B' Hap) as (v & l & E & A2).
      unfold upd. destruct (Nat.eqb_spec (group_of c x) (group_of c st)) as [Eg|]; eauto.
      exfalso. apply n0. apply (i_M_uniq _ _ _ HI _ _ _ _ H Eo). cbn. exact (i_M_upd_uniq _ _ _ HI _ _ _ _ Hu' Hu Eg).
  - intros m x snap H. sred. unfold upd in H at 1. destruct (Nat.eqb_spec m n) as [->|]; [discriminate|].
    destruct (i_M_flush _ _ _ HI _ _ _ H) as ((u' & Hu' & Hs') & w & v & l & B1 & B2 & B3). split; [exists u'; auto|].
    unfold upd. destruct (Nat.eqb_spec (group_of c x) (group_of c st)) as [Eg|].
    + exfalso. assert (x = st) by exact (i_M_upd_uniq _ _ _ HI _ _ _ _ Hu' Hu Eg). subst x. congruence.
    + exists w, v, l. auto.
  - intros m m' o o' H1 H2 E. sred. unfold upd in H1, H2.
    destruct (Nat.eqb_spec m n), (Nat.eqb_spec m' n); try congruence.
    + injection H1 as <-. subst. exact (i_M_uniq _ _ _ HI _ _ _ _ Eo H2 E).
    + injection H2 as <-. subst. exact (i_M_uniq _ _ _ HI _ _ _ _ H1 Eo E).
    + exact (i_M_uniq _ _ _ HI _ _ _ _ H1 H2 E).
Qed.

Lemma inv_remove_mop s n : Inv s -> Inv (set_mops (upd (mops s) n None) s).
Proof.
  intros HI. constructor; try frame HI.
  - intros m o H. sred. ucase; injs. exact (i_N_mops _ _ _ HI _ _ H).
  - intros m x g b' ap H. sred. unfold upd in H. destruct (Nat.eqb_spec m n); [discriminate|].
    exact (i_M_write _ _ _ HI _ _ _ _ _ H).
  - intros m x snap H. sred. unfold upd in H. destruct (Nat.eqb_spec m n); [discriminate|].
    exact (i_M_flush _ _ _ HI _ _ _ H).
  - intros m m' o o' H1 H2 E. sred. unfold upd in H1, H2.
    destruct (Nat.eqb_spec m n), (Nat.eqb_spec m' n); try congruence.
    exact (i_M_uniq _ _ _ HI _ _ _ _ H1 H2 E).
Qed.

Lemma inv_set_mdone s f : Inv s -> Inv (set_mdone f s).
Proof. intros HI. constructor; frame HI. Qed.

Lemma inv_trim_mh s snap : Inv s -> Inv (set_mh (fun g => trim snap (mh s g)) s).
Proof.
  intros HI. constructor; try frame HI.
  - intros g H. sred. pose proof (i_M_nonempty _ _ _ HI g). destruct (mh s g) as [|e l]; [auto|].
    cbn in H. destruct (snap (fst e)); discriminate.
  - intros x Hx. sred. destruct (i_M_src _ _ _ HI x Hx) as [B C]. split; auto. intros e Hi. apply C. eapply in_trim; eauto.
  - intros x Hx H. sred. apply (i_M_safe _ _ _ HI x Hx). destruct H as [H|(e & Hi & He)]; auto.
    right. exists e. split; auto. eapply in_trim; eauto.
  - intros x H. sred. destruct (i_M_ackF _ _ _ HI x H) as [B C]. split; auto. intros e Hi. apply C. eapply in_trim; eauto.
  - intros x H. sred. destruct (i_M_ackW _ _ _ HI x H) as (Hx & B & C). split; [auto|split; auto].
    intros e Hi. apply C. eapply in_trim; eauto.
  - intros m x g b' ap H. sred. destruct (i_M_write _ _ _ HI _ _ _ _ _ H) as (-> & A & B & C).
    split; auto. split; auto. split; auto. intros Hap. destruct (C Hap) as (v & l & E & D). rewrite E.
    destruct (trim_head snap m v l) as (l' & ->). eauto.
  - intros m x sn H. sred. destruct (i_M_flush _ _ _ HI _ _ _ H) as (A & w & v & l & B & C & D).
    split; auto. rewrite C. destruct (trim_head snap w v l) as (l' & ->). exists w, v, l'. auto.
Qed.

Definition no_mop (s : state V) (st : nat) : Prop := forall n o, mops s n = Some o -> mop_stripe o <> st.

Lemma no_mop_removed s n o : Inv s -> mops s n = Some o ->
  no_mop (set_mops (upd (mops s) n None) s) (mop_stripe o).
Proof.
  intros HI H m o' H' E. sred. unfold upd in H'. destruct (Nat.eqb_spec m n); [discriminate|].
  apply n0. exact (i_M_uniq _ _ _ HI _ _ _ _ H' H E).
Qed.

(** An update in the writing stage returns its buffer. *)
Lemma return_mbuf_ok (s : state V) st u : Inv s -> mupd s st = Some u -> u_stage u = MWriting ->
  return_mbuf (u_buf u) s =
  set_muse (upd (muse s) (u_buf u) false) (set_mavail (mavail s ++ [u_buf u]) s).
Proof.
  intros HI Hu Hs. destruct (i_M_ubuf _ _ _ HI _ _ Hu Hs) as [A B]. unfold return_mbuf. rewrite A.
  destruct (Nat.ltb_spec (u_buf u) MAX_CONCURRENT_CHANGES); [|lia]. reflexivity.
Qed.

Lemma pool_return (s : state V) b : Inv s -> muse s b = true -> b < MAX_CONCURRENT_CHANGES ->
  NoDup (mavail s ++ [b]) /\
  forall b', In b' (mavail s ++ [b]) -> upd (muse s) b false b' = false /\ b' < MAX_CONCURRENT_CHANGES.
Proof.
  intros HI Hb Hl. destruct (i_M_pool _ _ _ HI) as [Hn Hp]. split.
  - apply nodup_snoc; auto. intros Hi. destruct (Hp b Hi). congruence.
  - intros b' Hi. unfold upd. rewrite in_app_iff in Hi. destruct Hi as [Hi|[<-|[]]].
    + destruct (Hp b' Hi). destruct (Nat.eqb_spec b' b); auto.
    + rewrite Nat.eqb_refl. auto.
Qed.

(** The update of [st] is dropped: no operation, entry, or sector lock is left.
    [hd] are the new headers (reverted on failure). *)
Lemma inv_drop_upd s st u hd :
  Inv s -> mupd s st = Some u -> u_stage u = MFlushing -> no_mop s st ->
  (forall x, x <> st -> hd x = hdrs s x) ->
  (has_flag FLAG_HAS_SOURCE (hd st) = has_flag FLAG_HAS_SOURCE (hdrs s st)) ->
  (has_flag FLAG_FETCHED (hd st) = true -> has_flag FLAG_FETCHED (hdrs s st) = true) ->
  (shf s st = Fetched -> has_flag FLAG_FETCHED (hd st) = true) ->
  (shw s st = true -> has_flag FLAG_WRITTEN (hd st) = true) ->
  Inv (set_mupd (upd (mupd s) st None) (set_msec (remove_sector (u_sector u) (msec s)) (set_hdrs hd s))).
Proof.
  intros HI Hu Hs HN H1 H2 H3 H4 H5.
  destruct (i_M_upd _ _ _ HI _ _ Hu) as (Hst & Esec & _).
  assert (Hother : forall st' u', st' <> st -> mupd s st' = Some u' -> group_of c st' <> group_of c st).
  { intros st' u' Hne H' E. apply Hne. exact (i_M_upd_uniq _ _ _ HI _ _ _ _ H' Hu E). }
  assert (Hagr : forall g v, g <> group_of c st -> agrees c g v (hdrs s) -> agrees c g v hd).
  { intros g v Hgg A x Hx Ex. rewrite H1 by congruence. apply A; auto. }
  constructor; try frame HI.
  - intros x Hx. sred. destruct (i_M_src _ _ _ HI x Hx) as [A B]. split; auto.
    destruct (Nat.eq_dec x st); [subst; congruence|]. rewrite H1; auto.
  - intros x Hx H. sred. apply (i_M_safe _ _ _ HI x Hx). destruct H as [H|H]; auto. left.
    destruct (Nat.eq_dec x st); [subst; auto|]. rewrite <- H1; auto.
  - intros x H. sred. destruct (i_M_ackF _ _ _ HI x H) as [A B]. split; auto.
    destruct (Nat.eq_dec x st); [subst; auto|]. rewrite H1; auto.
  - intros x H. sred. destruct (i_M_ackW _ _ _ HI x H) as (A & B & C). split; [auto|split; auto].
    destruct (Nat.eq_dec x st); [subst; auto|]. rewrite H1; auto.
  - intros x u' H. sred. unfold upd in H. destruct (Nat.eqb_spec x st); [discriminate|].
    destruct (i_M_upd _ _ _ HI x u' H) as (A1 & A2 & A3 & A4 & A5 & A6). rewrite H1 by auto. repeat split; auto.
    apply in_remove_sector. split; auto. rewrite Esec. eauto.
  - intros x y u1 u2 X1 X2 E. sred. unfold upd in X1, X2.
    destruct (Nat.eqb_spec x st), (Nat.eqb_spec y st); try congruence.
    exact (i_M_upd_uniq _ _ _ HI _ _ _ _ X1 X2 E).
  - intros g Hi. sred. apply in_remove_sector in Hi. destruct Hi as [Hi Hg].
    destruct (i_M_sec _ _ _ HI _ Hi) as (x & u' & Hu' & E). exists x, u'. split; auto. unfold upd.
    destruct (Nat.eqb_spec x st); auto. subst. congruence.
  - intros x u' H S'. sred. unfold upd in H. destruct (Nat.eqb_spec x st); [discriminate|].
    exact (i_M_ubuf _ _ _ HI _ _ H S').
  - intros x y u1 u2 X1 X2 S1 S2 E. sred. unfold upd in X1, X2.
    destruct (Nat.eqb_spec x st), (Nat.eqb_spec y st); try congruence.
    exact (i_M_ubufinj _ _ _ HI _ _ _ _ X1 X2 S1 S2 E).
  - intros m x g b' ap H. sred. assert (x <> st) by exact (HN _ _ H).
    destruct (i_M_write _ _ _ HI _ _ _ _ _ H) as (-> & (u' & Hu' & A2) & B & C). 
    pose proof (Hother _ _ H0 Hu'). split; auto.
    split; [exists u'; split; auto; unfold upd; destruct (Nat.eqb_spec x st); congruence|].
    split; auto. intros Hap. destruct (C Hap) as (v & l & E & D). exists v, l. auto.
  - intros m x sn H. sred. assert (x <> st) by exact (HN _ _ H).
    destruct (i_M_flush _ _ _ HI _ _ _ H) as ((u' & Hu' & A2) & w & v & l & B & C & D).
    pose proof (Hother _ _ H0 Hu').
    split; [exists u'; split; auto; unfold upd; destruct (Nat.eqb_spec x st); congruence|].
    exists w, v, l. auto.
Qed.

(** Moving an update from the writing to the flushing stage. *)
Definition to_flushing (st : nat) (u : hupd) (s : state V) : state V :=
  set_mupd (upd (mupd s) st (Some (mk_hupd (u_buf u) MFlushing (u_header u) (u_mask u) (u_sector u))))
    (set_muse (upd (muse s) (u_buf u) false) (set_mavail (mavail s ++ [u_buf u]) s)).

Lemma inv_to_flushing s st u : Inv s -> mupd s st = Some u -> u_stage u = MWriting -> no_mop s st ->
  Inv (to_flushing st u s).
Proof.
  intros HI Hu Hs HN. unfold to_flushing.
  destruct (i_M_ubuf _ _ _ HI _ _ Hu Hs) as [Hmu Hmb]. constructor; try frame HI.
  - intros x u' H. sred. unfold upd in H. destruct (Nat.eqb_spec x st).
    + injection H as <-. subst. exact (i_M_upd _ _ _ HI _ _ Hu).
    + exact (i_M_upd _ _ _ HI _ _ H).
  - intros x y u1 u2 X1 X2 E. sred. unfold upd in X1, X2.
    destruct (Nat.eqb_spec x st), (Nat.eqb_spec y st); try congruence; subst.
    + exact (i_M_upd_uniq _ _ _ HI _ _ _ _ Hu X2 E).
    + exact (i_M_upd_uniq _ _ _ HI _ _ _ _ X1 Hu E).
    + exact (i_M_upd_uniq _ _ _ HI _ _ _ _ X1 X2 E).
  - intros g Hi. sred. destruct (i_M_sec _ _ _ HI _ Hi) as (x & u' & Hu' & E). unfold upd.
    destruct (Nat.eqb_spec x st) as [->|].
    + exists st. rewrite Nat.eqb_refl. eauto.
    + exists x. destruct (Nat.eqb_spec x st); [congruence|]. eauto.
  - intros x u' H S'. sred. unfold upd in H. destruct (Nat.eqb_spec x st); [injection H as <-; discriminate|].
    destruct (i_M_ubuf _ _ _ HI _ _ H S'). split; auto. unfold upd.
    destruct (Nat.eqb_spec (u_buf u') (u_buf u)); auto. exfalso. apply n. exact (i_M_ubufinj _ _ _ HI _ _ _ _ H Hu S' Hs e).
  - intros x y u1 u2 X1 X2 S1 S2 E. sred. unfold upd in X1, X2.
    destruct (Nat.eqb_spec x st); [injection X1 as <-; discriminate|].
    destruct (Nat.eqb_spec y st); [injection X2 as <-; discriminate|].
    exact (i_M_ubufinj _ _ _ HI _ _ _ _ X1 X2 S1 S2 E).
  - exact (pool_return s _ HI Hmu Hmb).
  - intros m x g b' ap H. sred. assert (Hx : x <> st) by exact (HN _ _ H).
    destruct (i_M_write _ _ _ HI _ _ _ _ _ H) as (-> & (u' & Hu' & A2) & B & C). split; auto.
    split; [exists u'; split; auto; unfold upd; destruct (Nat.eqb_spec x st); congruence|]. auto.
  - intros m x sn H. sred. assert (Hx : x <> st) by exact (HN _ _ H).
    destruct (i_M_flush _ _ _ HI _ _ _ H) as ((u' & Hu' & A2) & X).
    split; [exists u'; split; auto; unfold upd; destruct (Nat.eqb_spec x st); congruence|]. auto.
Qed.

Lemma upd_upd {A} (f : nat -> A) k v w x : upd (upd f k v) k w x = upd f k w x.
Proof. unfold upd. destruct (x =? k); auto. Qed.

(** Two states equal up to pointwise equality of [mupd]. *)
Lemma inv_mupd_ext s f g : (forall x, f x = g x) -> Inv (set_mupd f s) -> Inv (set_mupd g s).
Proof.
  intros E HI. constructor; try frame HI.
  - intros x u H. apply (i_M_upd _ _ _ HI). sred. congruence.
  - intros x y u u' H1 H2. apply (i_M_upd_uniq _ _ _ HI _ _ u u'); sred; congruence.
  - intros y Hy. destruct (i_M_sec _ _ _ HI y Hy) as (x & u & H & H'). exists x, u. sred. split; congruence.
  - intros x u H. apply (i_M_ubuf _ _ _ HI x u). sred. congruence.
  - intros x y u u' H1 H2. apply (i_M_ubufinj _ _ _ HI _ _ u u'); sred; congruence.
  - intros m x y b ap H. destruct (i_M_write _ _ _ HI _ _ _ _ _ H) as (A & (u & Hu & B) & C). split; auto. split; auto.
    exists u. sred. split; [congruence|auto].
  - intros m x sn H. destruct (i_M_flush _ _ _ HI _ _ _ H) as ((u & Hu & B) & C). split; auto.
    exists u. sred. split; [congruence|auto].
Qed.

Lemma inv_meta_failed s st u : Inv s -> mupd s st = Some u -> no_mop s st -> Inv (meta_failed st u s).
Proof.
  intros HI Hu HN. unfold meta_failed. cbv zeta.
  destruct (i_M_upd _ _ _ HI _ _ Hu) as (Hst & Esec & _ & _ & _ & Hm).
  assert (HsrcF : N.land (u_mask u) FLAG_HAS_SOURCE = 0%N) by (destruct Hm as [[-> _]|[-> _]]; reflexivity).
  set (hd := upd (hdrs s) st (N.ldiff (hdrs s st) (u_mask u))).
  assert (X1 : forall x, x <> st -> hd x = hdrs s x).
  { intros x Hx. unfold hd, upd. destruct (Nat.eqb_spec x st); congruence. }
  assert (X2 : has_flag FLAG_HAS_SOURCE (hd st) = has_flag FLAG_HAS_SOURCE (hdrs s st)).
  { unfold hd, upd. rewrite Nat.eqb_refl. apply has_flag_ldiff_other; auto. }
  assert (X3 : has_flag FLAG_FETCHED (hd st) = true -> has_flag FLAG_FETCHED (hdrs s st) = true).
  { unfold hd, upd. rewrite Nat.eqb_refl. apply has_flag_ldiff_weak. }
  assert (X4 : shf s st = Fetched -> has_flag FLAG_FETCHED (hd st) = true).
  { intros E. unfold hd, upd. rewrite Nat.eqb_refl. destruct Hm as [[_ Hm]|[-> _]]; [congruence|].
    rewrite has_flag_ldiff_other by reflexivity. apply (i_M_ackF _ _ _ HI st E). }
  assert (X5 : shw s st = true -> has_flag FLAG_WRITTEN (hd st) = true).
  { intros E. unfold hd, upd. rewrite Nat.eqb_refl. destruct Hm as [[-> _]|[_ Hm]]; [|congruence].
    rewrite has_flag_ldiff_other by reflexivity. apply (i_M_ackW _ _ _ HI st E). }
  destruct (u_stage u) eqn:Es.
  - destruct (i_M_ubuf _ _ _ HI _ _ Hu Es) as [A B].
    pose proof (inv_drop_upd (to_flushing st u s) st
      (mk_hupd (u_buf u) MFlushing (u_header u) (u_mask u) (u_sector u)) hd
      (inv_to_flushing s st u HI Hu Es HN)) as D.
    unfold return_mbuf. cbn [muse set_hdrs]. rewrite A.
    destruct (Nat.ltb_spec (u_buf u) MAX_CONCURRENT_CHANGES); [|lia]. cbn [andb].
    assert (Q : mupd (to_flushing st u s) st = Some (mk_hupd (u_buf u) MFlushing (u_header u) (u_mask u) (u_sector u))).
    { unfold to_flushing. sred. unfold upd. rewrite Nat.eqb_refl. auto. }
    specialize (D Q eq_refl HN X1 X2 X3 X4 X5). unfold to_flushing in D. sred.
    eapply inv_mupd_ext; [|exact D]. intros x. apply upd_upd.
  - exact (inv_drop_upd s st u hd HI Hu Es HN X1 X2 X3 X4 X5).
Qed.

Lemma inv_meta_written s st u n : Inv s -> mupd s st = Some u -> u_stage u = MWriting -> no_mop s st ->
  (exists v l, mdone s n = true /\ mh s (group_of c st) = (n, v) :: l /\ agrees c (group_of c st) v (hdrs s)) ->
  Inv (meta_written st u s).
Proof.
  intros HI Hu Hs HN (v & l & Hmd & Hmh & Hag). unfold meta_written. cbv zeta.
  destruct (i_M_ubuf _ _ _ HI _ _ Hu Hs) as [A B]. unfold return_mbuf. rewrite A.
  destruct (Nat.ltb_spec (u_buf u) MAX_CONCURRENT_CHANGES); [|lia]. cbn [andb].
  pose proof (inv_bump c hsrc _ (inv_to_flushing s st u HI Hu Hs HN)) as HI2.
  assert (Hnx : mops s (next s) = None) by (apply mops_next; auto).
  unfold to_flushing in HI2. sred. constructor; try frame HI2.
  - intros m o H'. sred. ucase; [lia|]. pose proof (i_N_mops _ _ _ HI _ _ H'). lia.
  - intros m x g b ap H'. sred. unfold upd in H' at 1. destruct (Nat.eqb_spec m (next s)); [discriminate|].
    exact (i_M_write _ _ _ HI2 _ _ _ _ _ H').
  - intros m x snap H'. sred. unfold upd in H' at 1. destruct (Nat.eqb_spec m (next s)).
    + injection H' as <- <-. split.
      * eexists. split; [unfold upd; rewrite Nat.eqb_refl; reflexivity|]. auto.
      * exists n, v, l. auto.
    + exact (i_M_flush _ _ _ HI2 _ _ _ H').
  - intros m m' o o' H1 H2 E. sred. unfold upd in H1, H2.
    destruct (Nat.eqb_spec m (next s)), (Nat.eqb_spec m' (next s)); try congruence.
    + injection H1 as <-. exfalso. exact (HN _ _ H2 (eq_sym E)).
    + injection H2 as <-. exfalso. exact (HN _ _ H1 E).
    + exact (i_M_uniq _ _ _ HI _ _ _ _ H1 H2 E).
Qed.

Lemma touch_mono (s s' : state V) w off len :
  (forall st, released (shf s st) = true -> released (shf s' st) = true) ->
  (forall st, shw s st = true -> shw s' st = true) ->
  touch_ok c s w off len -> touch_ok c s' w off len.
Proof. intros A B T i Hi. destruct (T i Hi). split; auto. Qed.

Lemma inv_ack_fetched s st k : Inv s -> st < nst c -> mupd s st = None ->
  has_flag FLAG_FETCHED (hdrs s st) = true ->
  (forall e, In e (mh s (group_of c st)) -> has_flag FLAG_FETCHED (snd e st) = true) ->
  Inv (set_cntF k (set_shf (upd (shf s) st Fetched) s)).
Proof.
  intros HI Hst Hnu Hh He. destruct (i_M_safe _ _ _ HI st Hst (or_introl Hh)) as [Hs Hr].
  constructor; try frame HI.
  - intros x f H Hn. sred. ucase; [|exact (i_F_unrel _ _ _ HI _ _ H Hn)].
    pose proof (i_F_unrel _ _ _ HI _ _ H Hn). destruct Hr; congruence.
  - intros x H. sred. ucase; [left; reflexivity|]. exact (i_D_fetched _ _ _ HI _ H).
  - intros x. destruct (i_M_shf _ _ _ HI x) as [A B]. sred. ucase; [split; [auto|lia]|auto].
  - intros x Hx H. sred. ucase; [split; [auto|left; auto]|]. exact (i_M_safe _ _ _ HI _ Hx H).
  - intros x H. sred. ucase; [auto|]. exact (i_M_ackF _ _ _ HI _ H).
  - intros x u H. sred. destruct (i_M_upd _ _ _ HI _ _ H) as (A1 & A2 & A3 & A4 & A5 & A6). repeat split; auto.
    ucase; [congruence|auto].
  - intros n q id dv kk H. sred. pose proof (i_G_op _ _ _ HI _ _ _ _ _ H) as A.
    assert (T : forall w off len, touch_ok c s w off len ->
                touch_ok c (set_cntF k (set_shf (upd (shf s) st Fetched) s)) w off len).
    { intros w off len. apply touch_mono; sred; [|auto]. intros x Hx. unfold upd. destruct (x =? st); auto. }
    destruct dv, kk; try exact A; try (apply T; exact A).
    destruct A as [A1 A2]. split; [exact A1|apply T; exact A2].
  - intros x Hx Hn' Hs' Hr'. apply (i_cover _ _ _ HI x Hx Hn' Hs'). sred. revert Hr'. unfold upd.
    destruct (x / ssc c =? st); [discriminate|auto].
Qed.

Lemma inv_ack_written s st : Inv s -> st < nst c -> mupd s st = None ->
  has_flag FLAG_WRITTEN (hdrs s st) = true ->
  (forall e, In e (mh s (group_of c st)) -> has_flag FLAG_WRITTEN (snd e st) = true) ->
  Inv (set_shw (upd (shw s) st true) s).
Proof.
  intros HI Hst Hnu Hh He. constructor; try frame HI.
  - intros x H. sred. ucase; [auto|]. exact (i_M_ackW _ _ _ HI _ H).
  - intros x u H. sred. destruct (i_M_upd _ _ _ HI _ _ H) as (A1 & A2 & A3 & A4 & A5 & A6). repeat split; auto.
    ucase; [congruence|auto].
  - intros n q id dv kk H. sred. pose proof (i_G_op _ _ _ HI _ _ _ _ _ H) as A.
    assert (T : forall w off len, touch_ok c s w off len ->
                touch_ok c (set_shw (upd (shw s) st true) s) w off len).
    { intros w off len. apply touch_mono; sred; [auto|]. intros x Hx. unfold upd. destruct (x =? st); auto. }
    destruct dv, kk; try exact A; try (apply T; exact A).
    destruct A as [A1 A2]. split; [exact A1|apply T; exact A2].
Qed.

Lemma inv_meta_flushed s st u : Inv s -> mupd s st = Some u -> u_stage u = MFlushing -> no_mop s st ->
  (exists w v, mh s (group_of c st) = [(w, v)] /\ agrees c (group_of c st) v (hdrs s)) ->
  Inv (meta_flushed c st u s).
Proof.
  intros HI Hu Hs HN (w & v & Hmh & Hag). unfold meta_flushed. cbv zeta.
  change (mupd (set_msec (remove_sector (u_sector u) (msec s)) s)) with (mupd s).
  destruct (i_M_upd _ _ _ HI _ _ Hu) as (Hst & Esec & Hin & Eh & Hf & Hm).
  pose proof (inv_drop_upd s st u (hdrs s) HI Hu Hs HN) as HI1.
  specialize (HI1 ltac:(auto) ltac:(auto) ltac:(auto)
    (fun E => proj1 (i_M_ackF _ _ _ HI st E)) (fun E => proj1 (proj2 (i_M_ackW _ _ _ HI st E)))).
  change (set_hdrs (hdrs s) s) with (set_hdrs (hdrs s) s) in HI1.
  replace (set_hdrs (hdrs s) s) with s in HI1 by (destruct s; reflexivity).
  set (s1 := set_mupd (upd (mupd s) st None) (set_msec (remove_sector (u_sector u) (msec s)) s)) in *.
  assert (Hnu : mupd s1 st = None). { subst s1. cbn. unfold upd. rewrite Nat.eqb_refl. auto. }
  assert (Hh : forall e, In e (mh s1 (group_of c st)) -> snd e st = u_header u).
  { subst s1. cbn. rewrite Hmh. intros e [<-|[]]. cbn. rewrite Eh. apply Hag; auto. }
  assert (Eh1 : hdrs s1 st = u_header u). { subst s1. cbn. auto. }
  clearbody s1. unfold set_stripe_header. destruct (Nat.ltb_spec st (nst c)); [|lia].
  set (s2 := if has_flag FLAG_FETCHED (u_header u)
             then let prev := shf s1 st in
                  let s0 := set_shf (upd (shf s1) st Fetched) s1 in
                  if released prev then s0 else set_cntF (S (cntF s0)) s0
             else s1).
  change (Inv (if has_flag FLAG_WRITTEN (u_header u) then set_shw (upd (shw s2) st true) s2 else s2)).
  assert (HI2 : Inv s2).
  { subst s2. destruct (has_flag FLAG_FETCHED (u_header u)) eqn:Ef; auto. cbv zeta.
    assert (R : forall k, Inv (set_cntF k (set_shf (upd (shf s1) st Fetched) s1))).
    { intros k. apply inv_ack_fetched; auto; [congruence|]. intros e He. rewrite Hh; auto. }
    destruct (released (shf s1 st)); [|apply R].
    specialize (R (cntF s1)). replace (set_cntF (cntF s1) _) with (set_shf (upd (shf s1) st Fetched) s1) in R;
      [exact R|destruct s1; reflexivity]. }
  assert (E2 : mupd s2 = mupd s1 /\ hdrs s2 = hdrs s1 /\ mh s2 = mh s1).
  { subst s2. destruct (has_flag FLAG_FETCHED (u_header u)); auto. cbv zeta. destruct (released (shf s1 st)); auto. }
  destruct E2 as (E2 & E3 & E4). clearbody s2.
  destruct (has_flag FLAG_WRITTEN (u_header u)) eqn:Ew; auto.
  apply inv_ack_written; [exact HI2|exact Hst|congruence|congruence|].
  rewrite E4. intros e He. rewrite Hh; auto.
Qed.

Lemma inv_meta_done n ok s : Inv s -> Inv (meta_done c n ok s).
Proof.
  intros HI. unfold meta_done. destruct (mops s n) as [[st g b ap|st snap]|] eqn:Eo; auto.
  - destruct (ok && negb ap) eqn:Ec; auto. cbv zeta.
    pose proof (inv_remove_mop s n HI) as HI1. pose proof (no_mop_removed s n _ HI Eo) as HN. cbn [mop_stripe] in HN.
    set (s1 := set_mops (upd (mops s) n None) s) in *.
    destruct (i_M_write _ _ _ HI _ _ _ _ _ Eo) as (-> & (u & Hu & Hs & Eb) & A & B).
    unfold meta_completion. destruct ok.
    + cbn in Ec. apply negb_false_iff in Ec. destruct (B Ec) as (v & l & E & D).
      replace (mupd (set_mdone (upd (mdone s1) n true) s1) st) with (Some u) by (symmetry; exact Hu).
      rewrite Hs. apply (inv_meta_written _ st u n); auto using inv_set_mdone.
      exists v, l. cbn. unfold upd. rewrite Nat.eqb_refl. auto.
    + replace (mupd s1 st) with (Some u) by (symmetry; exact Hu). apply inv_meta_failed; auto.
  - cbv zeta.
    pose proof (inv_remove_mop s n HI) as HI1. pose proof (no_mop_removed s n _ HI Eo) as HN. cbn [mop_stripe] in HN.
    set (s1 := set_mops (upd (mops s) n None) s) in *.
    destruct (i_M_flush _ _ _ HI _ _ _ Eo) as ((u & Hu & Hs) & w & v & l & Hw & Hmh & Hag).
    unfold meta_completion. destruct ok.
    + replace (mupd (set_mh (fun g => trim snap (mh s1 g)) s1) st) with (Some u) by (symmetry; exact Hu).
      rewrite Hs. apply inv_meta_flushed; auto using inv_trim_mh.
      exists w, v. cbn. rewrite Hmh. split; auto. apply trim_durable; auto.
    + replace (mupd s1 st) with (Some u) by (symmetry; exact Hu). apply inv_meta_failed; auto.
Qed.

(** ** Startup *)

Lemma inv_boot n hist mhist bd md :
  0 < n -> (forall m, bd m = true -> m < n) -> (forall g, mhist g <> []) ->
  (forall st, st < nst c -> forall e, In e (mhist (group_of c st)) ->
     has_flag FLAG_HAS_SOURCE (snd e st) = hsrc st /\
     (has_flag FLAG_FETCHED (snd e st) = true -> hsrc st = true) /\
     forall e', In e' (mhist (group_of c st)) -> snd e' st = snd e st) ->
  (forall x, x < target c -> x / ssc c < nst c -> hsrc (x / ssc c) = true ->
     (forall e, In e (mhist (group_of c (x / ssc c))) -> has_flag FLAG_FETCHED (snd e (x / ssc c)) = false) ->
     x < src c \/ (full_stripes c = true /\ has_image c = false)) ->
  Inv (boot c n hist mhist bd md).
Proof.
  intros Hn Hbd Hne Hm Hc.
  set (h := loaded_headers c mhist).
  assert (Hh : forall st, st < nst c -> exists e, In e (mhist (group_of c st)) /\ h st = snd e st).
  { intros st Hst. unfold h, loaded_headers. specialize (Hne (group_of c st)). destruct (mhist (group_of c st)) as [|e l]; [congruence|].
    exists e. cbn; auto. }
  assert (Hs : forall st, st < nst c -> has_flag FLAG_HAS_SOURCE (h st) = hsrc st).
  { intros st Hst. destruct (Hh st Hst) as (e & Hi & ->). apply Hm; auto. }
  assert (Hf : forall st, st < nst c -> has_flag FLAG_FETCHED (h st) = true -> hsrc st = true).
  { intros st Hst. destruct (Hh st Hst) as (e & Hi & ->). apply Hm; auto. }
  assert (He : forall st, st < nst c -> forall e, In e (mhist (group_of c st)) -> snd e st = h st).
  { intros st Hst e Hi. destruct (Hh st Hst) as (e' & Hi' & ->). apply (Hm st Hst e' Hi'); auto. }
  unfold boot. fold h. clearbody h. cbv zeta.
  constructor; unfold N_pos, N_ops, N_sops, N_mops, N_bd, F_queue, F_range, F_unrel, F_buf, F_bufinj, F_pool, F_sop, F_op,
    F_uniq_sop, F_uniq_op, F_uniq, F_ret, F_fin, F_auto, F_mq, D_buf, D_applied, D_flush, D_fetched,
    M_nonempty, M_src, M_shf, M_safe, M_queue, M_ackF, M_ackW, M_upd, M_upd_uniq, M_sec, M_ubuf, M_ubufinj, M_pool,
    M_write, M_flush, M_uniq, G_op, G_queue, Cover; sred; try (intros; discriminate); auto.
  - split; [constructor|]. intros; cbn; split; [tauto|discriminate].
  - split; [apply seq_NoDup|]. intros b Hb. apply in_seq in Hb. split; auto. lia.
  - intros; lia.
  - intros st [].
  - intros st Hi. destruct (autofetch c); [|destruct Hi]. apply in_seq in Hi.
    pose proof (wf_src_nst _ WF) as W. pose proof (wf_ssc _ WF) as W2.
    destruct (negb (all_fetched c h)); [lia|].
    unfold div_ceil in Hi. rewrite Nat.div_small in Hi; lia.
  - intros st [[]|[]].
  - intros st Hst. split; auto. intros e Hi. rewrite (He st Hst e Hi). auto.
  - intros st. split; intros Hst.
    + destruct (Nat.ltb_spec st (nst c)); [|lia]. unfold initial_fetch_state. rewrite (Hs st Hst).
      destruct (hsrc st); auto. destruct (has_flag FLAG_FETCHED (h st)); auto.
    + destruct (Nat.ltb_spec st (nst c)); [lia|]. auto.
  - intros st Hst H.
    assert (Hfe : has_flag FLAG_FETCHED (h st) = true).
    { destruct H as [H|(e & Hi & H)]; auto. rewrite <- (He st Hst e Hi). auto. }
    split; [auto|]. left. destruct (Nat.ltb_spec st (nst c)); [|lia]. unfold initial_fetch_state.
    rewrite Hfe. destruct (has_flag FLAG_HAS_SOURCE (h st)); auto.
  - intros st k [].
  - intros st H. destruct (Nat.ltb_spec st (nst c)); [|discriminate]. unfold initial_fetch_state in H.
    destruct (has_flag FLAG_HAS_SOURCE (h st)); [|discriminate].
    destruct (has_flag FLAG_FETCHED (h st)) eqn:E; [|discriminate]. split; auto. intros e Hi. rewrite (He st H0 e Hi). auto.
  - intros st H. apply andb_true_iff in H. destruct H as [H1 H2]. apply Nat.ltb_lt in H1. repeat split; auto.
    intros e Hi. rewrite (He st H1 e Hi). auto.
  - intros g [].
  - split; [apply seq_NoDup|]. intros b Hb. apply in_seq in Hb. split; auto. lia.
  - intros x Hx Hn' Hs' Hr'. apply Hc; auto. intros e Hi. rewrite (He _ Hn' e Hi).
    destruct (Nat.ltb_spec (x / ssc c) (nst c)); [|lia]. revert Hr'. unfold initial_fetch_state. rewrite (Hs _ Hn'), Hs'.
    destruct (has_flag FLAG_FETCHED (h (x / ssc c))); [discriminate|auto].
Qed.

Lemma crashed_in {A} (l : list (nat * A)) i e : In e (crashed l i) -> exists e', In e' l /\ e = (0, snd e').
Proof.
  unfold crashed. destruct (nth_error l i) as [x|] eqn:E.
  - intros [<-|[]]. exists x. split; auto. eapply nth_error_In; eauto.
  - destruct l as [|x l]; [intros []|]. intros [<-|[]]. exists x. cbn; auto.
Qed.

Lemma crashed_single {A} (l : list (nat * A)) i e e' : In e (crashed l i) -> In e' (crashed l i) -> e' = e.
Proof.
  unfold crashed. destruct (nth_error l i) as [x|] eqn:E; [|destruct l as [|x l]]; cbn; intuition congruence.
Qed.

Lemma crashed_nonempty {A} (l : list (nat * A)) i : l <> [] -> crashed l i <> [].
Proof. unfold crashed. destruct (nth_error l i); [discriminate|]. destruct l; [auto|discriminate]. Qed.

Lemma inv_crash pb pm s : Inv s -> Inv (crash c pb pm s).
Proof.
  intros HI. unfold crash. apply inv_boot.
  - exact (i_N_pos _ _ _ HI).
  - exact (i_N_bd _ _ _ HI).
  - intros g. apply crashed_nonempty. exact (i_M_nonempty _ _ _ HI g).
  - intros st Hst e Hi. destruct (crashed_in _ _ _ Hi) as (e0 & Hi0 & ->). cbn. repeat split.
    + apply (i_M_src _ _ _ HI st Hst); auto.
    + intros Hf. apply (i_M_safe _ _ _ HI st Hst). right. eauto.
    + intros e' Hi'. rewrite (crashed_single _ _ _ _ Hi Hi'). auto.
  - intros x Hx Hn Hs Hf. apply (i_cover _ _ _ HI x Hx Hn Hs).
    destruct (crashed (mh s (group_of c (x / ssc c))) (pm (group_of c (x / ssc c)))) as [|e l] eqn:E.
    { destruct (crashed_nonempty _ (pm (group_of c (x / ssc c))) (i_M_nonempty _ _ _ HI (group_of c (x / ssc c))) E). }
    specialize (Hf e (or_introl eq_refl)). destruct (crashed_in (mh s (group_of c (x / ssc c))) (pm (group_of c (x / ssc c))) e) as (e0 & Hi0 & ->).
    { rewrite E. now left. }
    cbn in Hf. pose proof (proj1 (i_M_shf _ _ _ HI (x / ssc c)) Hn) as Y. destruct (shf s (x / ssc c)) eqn:Es; auto; [|congruence].
    destruct (i_M_ackF _ _ _ HI _ Es) as [_ X]. rewrite (X _ Hi0) in Hf. discriminate.
Qed.

Lemma inv_init base h : (forall st, st < nst c -> has_flag FLAG_HAS_SOURCE (h st) = hsrc st) ->
  (forall st, st < nst c -> has_flag FLAG_FETCHED (h st) = true -> hsrc st = true) ->
  (forall x, x < target c -> x / ssc c < nst c -> hsrc (x / ssc c) = true -> has_flag FLAG_FETCHED (h (x / ssc c)) = false ->
     x < src c \/ (full_stripes c = true /\ has_image c = false)) ->
  Inv (init c base h).
Proof.
  intros H1 H2 H3. unfold init. apply inv_boot.
  - lia.
  - intros m Hm. apply Nat.eqb_eq in Hm. lia.
  - discriminate.
  - intros st Hst e [<-|[]]. cbn. repeat split; auto. intros e' [<-|[]]. auto.
  - intros x Hx Hn Hs Hf. apply H3; auto. apply (Hf (0, h)). now left.
Qed.

End MetaInv.
