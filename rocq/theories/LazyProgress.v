(** What eventually happens in executions without permanent errors in which every
    part of the lazy device keeps running. *)
From Coq Require Import List Arith NArith Bool Lia ZifyBool ZifyNat.
Import ListNotations.
From Verif Require Import Base BaseFacts DiskSpec LazyState MetadataModel LazyModel LazySpec LazyLiveSpec LazyInv LazyTac LazyInvGuest LazyInvFetch LazyInvMeta LazySim LazyInv2 LazyReach LazyRun LazyProofs LazyLive.

(** ** Reasoning about time *)
Definition eventually (t : nat) (Q : nat -> Prop) : Prop := exists t', t <= t' /\ Q t'.

Lemma ev_now t (Q : nat -> Prop) : Q t -> eventually t Q.
Proof. exists t. auto. Qed.
Lemma ev_weaken t (P Q : nat -> Prop) : (forall u, t <= u -> P u -> Q u) -> eventually t P -> eventually t Q.
Proof. intros H (u & A & B). exists u. auto. Qed.
Lemma ev_trans t (P Q : nat -> Prop) : eventually t P -> (forall u, t <= u -> P u -> eventually u Q) -> eventually t Q.
Proof. intros (u & A & B) H. destruct (H u A B) as (v & C & D). exists v. split; [lia|auto]. Qed.

(** [P] goes on unless [Q]; [H] happens again; [H] during [P] gives [Q]. *)
Lemma until (P Q H : nat -> Prop) : (forall t, P t -> P (S t) \/ Q (S t)) -> again H ->
  (forall t, P t -> H t -> Q (S t)) -> forall t, P t -> eventually t Q.
Proof.
  intros Hs Ha Hh t Hp. destruct (Ha t) as (t' & L & Ht').
  assert (X : forall k t, t + k = t' -> P t -> eventually t Q).
  { induction k; intros u E Hu.
    - exists (S u). split; [lia|]. apply Hh; auto. replace u with t' by lia. auto.
    - destruct (Hs u Hu) as [Y|Y]; [|exists (S u); auto]. destruct (IHk (S u)) as (v & A & B); [lia|auto|]. exists v. split; [lia|auto]. }
  apply (X (t' - t)); [lia|auto].
Qed.

(** [B] goes on unless [Q], and [R] eventually holds: it does so during [B], or [Q]. *)
Lemma meanwhile (B Q R : nat -> Prop) t : (forall t, B t -> B (S t) \/ Q (S t)) -> B t -> eventually t R ->
  eventually t (fun u => Q u \/ B u /\ R u).
Proof.
  intros Hs HB (t' & L & HR).
  assert (X : forall k t, t + k = t' -> B t -> eventually t (fun u => Q u \/ B u /\ R u)).
  { induction k; intros u E Hu.
    - exists u. replace u with t' in * by lia. auto.
    - destruct (Hs u Hu) as [Y|Y]; [|exists (S u); auto]. destruct (IHk (S u)) as (v & A & C); [lia|auto|]. exists v. split; [lia|auto]. }
  apply (X (t' - t)); [lia|auto].
Qed.

Section Progress.
Context {V : Type}.
Variable c : cfg V.
Variable base : nat -> V.
Variable h : nat -> N.
Hypothesis WC : well_configured c h.
Notation hs := (hs h).
Let WF := wf_of c h WC.
Hypothesis SRC : forall st, st < nst c -> has_flag FLAG_HAS_SOURCE (h st) = true -> st * ssc c < src c.
Variable s0 : state V.
Hypothesis START : just_started c base h s0.
Variable ev : nat -> event V.
Hypothesis NE : no_permanent_errors c s0 ev.
Hypothesis KR : keeps_running c s0 ev.
Notation X := (at_time c s0 ev).
Notation Ok := (Ok c hs).

(** ** The invariant along the execution *)
Lemma X_S t : X (S t) = fst (step c (X t) (ev t)).
Proof.
  unfold at_time. rewrite seq_S, map_app, run_app. cbn [map run fst plus]. destruct (step c _ (ev t)). reflexivity.
Qed.

Lemma li_boot n hist mhist bd md : (forall st, st < nst c -> has_flag FLAG_HAS_SOURCE (loaded_headers c mhist st) = hs st) ->
  LI c hs (boot c n hist mhist bd md).
Proof.
  intros Hh. constructor; unfold boot; cbv zeta; sred; try discriminate; [intros q r []|].
  intros Ha st Hst Hs. rewrite Ha. destruct (all_fetched c (loaded_headers c mhist)) eqn:Ef.
  - right. left. sred. destruct (Nat.ltb_spec st (nst c)); [|lia]. unfold all_fetched in Ef. rewrite forallb_forall in Ef.
    specialize (Ef st ltac:(apply in_seq; lia)). rewrite (Hh st Hst), Hs in Ef. cbn in Ef. unfold initial_fetch_state. rewrite (Hh st Hst), Hs, Ef. reflexivity.
  - left. cbn [negb]. apply in_seq. split; [lia|]. cbn. pose proof (SRC st Hst Hs) as B. pose proof (wf_ssc _ WF). unfold div_ceil.
    clear - B H. destruct (Nat.ltb_spec st ((src c + (ssc c - 1)) / ssc c)) as [|L]; auto. exfalso.
    pose proof (Nat.mul_succ_div_gt (src c + (ssc c - 1)) (ssc c) ltac:(lia)) as G.
    set (q := (src c + (ssc c - 1)) / ssc c) in *. clearbody q. nia.
Qed.

Record Good (s : state V) : Prop := { d_ok : Ok s; d_fine : fine c s; d_w : wdone s = false; d_nf : no_failed s; d_li : LI c hs s }.

Lemma good_start : Good s0.
Proof.
  assert (HO : Ok s0).
  { destruct START as [->|(es & pb & pm & ->)]; [|apply ok_reached; auto]. exact (ok_reached c base h WC []). }
  destruct START as [->|(es & pb & pm & ->)].
  - split; auto.
    + split; auto. intros q r [].
    + intros st. unfold init, boot. cbv zeta. sred. destruct (_ <? _); [|discriminate]. unfold initial_fetch_state. destruct (has_flag _ _); [destruct (has_flag _ _)|]; discriminate.
    + apply li_boot. intros st Hst. reflexivity.
  - rewrite reached_app in *. cbn [run step fst] in *. pose proof (ok_reached c base h WC es) as HO1. set (s := reached c base h es) in *. clearbody s.
    split; auto.
    + split; auto. intros q r [].
    + intros st. unfold crash, boot. cbv zeta. sred. destruct (_ <? _); [|discriminate]. unfold initial_fetch_state. destruct (has_flag _ _); [destruct (has_flag _ _)|]; discriminate.
    + apply li_boot. intros st Hst. destruct (loaded_crash c hs pm s st (k_inv _ _ _ HO1)) as (e & Hi & ->).
      apply (i_M_src _ _ _ (k_inv _ _ _ HO1) st Hst); auto.
Qed.

Lemma good_event_at t : good_event c (X t) (ev t).
Proof.
  pose proof (ne_running _ _ _ NE t) as [N1 N2]. destruct (ev t) as [q id r|q|q|n ok|n i|n i|n i v|n| | | |a|n ok| | |n ok| |pb pm] eqn:E; cbn; auto; try congruence; try (cbn in N2; discriminate N2).
  - eapply (ne_add _ _ _ NE); eauto.
  - destruct (guest_op (X t) n) eqn:G; auto. left. eapply (ne_guest _ _ _ NE); eauto.
  - eapply (ne_meta _ _ _ NE); eauto.
Qed.

Lemma X_0 : X 0 = s0.
Proof. reflexivity. Qed.

Lemma wdone_gs s e s' : GS c s e s' -> wdone s' = wdone s.
Proof.
  intros G. destruct G; try reflexivity; try apply H; try apply H0.
  - destruct k; reflexivity.
  - subst s'. reflexivity.
  - destruct (ssh_frame c st (u_header u) s1 H2) as (_ & _ & _ & _ & _ & _ & _ & _ & _ & _ & _ & _ & _ & _ & _ & -> & _). subst s1. reflexivity.
  - unfold disconnect. destruct (_ && _); reflexivity.
Qed.

Lemma good_gs t : Good (X t) -> GS c (X t) (ev t) (X (S t)) /\ Good (X (S t)).
Proof.
  intros [A B C D E]. pose proof (good_event_at t) as G. rewrite X_S.
  assert (N : no_failed (fst (step c (X t) (ev t)))) by (rewrite <- X_S; intros st; apply (ne_fetch _ _ _ NE)).
  pose proof (gs_step c hs WF (X t) (ev t) A B C D G N) as GS. split; auto.
  assert (O' : Ok (fst (step c (X t) (ev t)))) by (apply ok_step; auto).
  split; auto.
  - apply (fine_step c hs WF); auto. intros q id r Eq. rewrite Eq in G. exact G.
  - rewrite (wdone_gs _ _ _ GS). auto.
  - apply (li_step c hs (X t) (ev t)); auto.
Qed.
Lemma good t : Good (X t).
Proof. induction t; [rewrite X_0; apply good_start|apply good_gs; auto]. Qed.
Lemma gs t : GS c (X t) (ev t) (X (S t)).
Proof. apply good_gs, good. Qed.
Lemma okX t : Ok (X t).
Proof. apply good. Qed.
Lemma invX t : Inv c hs (X t).
Proof. apply okX. Qed.
Lemma inv2X t : Inv2 c hs (X t).
Proof. apply okX. Qed.

Lemma mono t u : t <= u -> Mono (X t) (X u).
Proof. intros L. induction L; [apply mono_refl|]. eapply mono_trans; [exact IHL|]. rewrite X_S. apply (mono_step c hs). apply okX. Qed.
Lemma acked_mono t u st k : t <= u -> acked st k (X t) -> acked st k (X u).
Proof. intros L. pose proof (mono t u L) as M. destruct k; cbn [acked]; [apply (mo_fet _ _ M)|apply (mo_shw _ _ M)]. Qed.

(** ** Metadata updates complete *)

(** A metadata write in flight stays in flight until its update is being flushed. *)
Definition m_writing (st n : nat) (m : N) (s : state V) : Prop :=
  exists u ap, mupd s st = Some u /\ u_stage u = MWriting /\ u_mask u = m /\ mops s n = Some (MWrite st (group_of c st) (u_buf u) ap).
Definition m_flushing (st n : nat) (m : N) (s : state V) : Prop :=
  exists u snap, mupd s st = Some u /\ u_stage u = MFlushing /\ u_mask u = m /\ mops s n = Some (MFlush st snap).

Lemma m_writing_step s e s' st n m : Ok s -> GS c s e s' -> m_writing st n m s ->
  m_writing st n m s' \/ (mavail s' <> [] /\ exists n', m_flushing st n' m s').
Proof.
  intros HO G (u & ap & Hu & Hs & Hm & Ho).
  assert (Sm : mupd s' = mupd s -> mops s' = mops s -> m_writing st n m s') by (intros E1 E2; exists u, ap; rewrite E1, E2; auto).
  pose proof (i_N_mops _ _ _ (k_inv _ _ _ HO) _ _ Ho) as Hn.
  destruct G; try (left; apply Sm; reflexivity); try (left; apply Sm; apply H); try (left; apply Sm; apply H0).
  - left. apply Sm; destruct k; reflexivity.
  - left. unfold m_writing. sred. exists u. unfold upd. destruct (Nat.eqb_spec n n0); [|exists ap; auto]. subst. rewrite Ho in H. injection H as <- <- <- _. exists true. auto.
  - left. subst s'. unfold m_writing. sred. exists u, ap. unfold upd. destruct (Nat.eqb_spec n (next s)); [lia|]. destruct (Nat.eqb_spec st st0); [|auto]. subst.
    destruct (i_M_upd _ _ _ (k_inv _ _ _ HO) _ _ Hu) as (_ & _ & Y & _). contradiction.
  - destruct (Nat.eq_dec st0 st) as [->|Hne].
    + right. rewrite Hu in H0. injection H0 as <-. sred. split; [destruct (mavail s); discriminate|]. exists (next s). unfold m_flushing. sred. unfold upd. rewrite !Nat.eqb_refl.
      eexists. eexists. split; [reflexivity|]. cbn. auto.
    + left. unfold m_writing. sred. exists u, ap. unfold upd. destruct (Nat.eqb_spec st st0); [congruence|]. destruct (Nat.eqb_spec n (next s)); [lia|].
      destruct (Nat.eqb_spec n n0); auto. congruence.
  - left. destruct (ssh_frame c st0 (u_header u0) s1 H2) as (_ & _ & _ & _ & E1 & _ & _ & _ & _ & _ & _ & _ & _ & _ & E2 & _).
    assert (Hne : st <> st0) by (intros ->; congruence). unfold m_writing. rewrite E1, E2. subst s1. sred. exists u, ap. unfold upd. destruct (Nat.eqb_spec st st0); [congruence|].
    destruct (Nat.eqb_spec n n0); auto. congruence.
  - left. apply Sm; unfold disconnect; destruct (_ && _); reflexivity.
Qed.

Lemma m_flushing_step s e s' st n k : Ok s -> GS c s e s' -> m_flushing st n (mask_of k) s ->
  m_flushing st n (mask_of k) s' \/ (acked st k s' /\ ~ In (group_of c st) (msec s')).
Proof.
  intros HO G (u & snap & Hu & Hs & Hm & Ho).
  assert (Sm : mupd s' = mupd s -> mops s' = mops s -> m_flushing st n (mask_of k) s') by (intros E1 E2; exists u, snap; rewrite E1, E2; auto).
  pose proof (i_N_mops _ _ _ (k_inv _ _ _ HO) _ _ Ho) as Hn.
  destruct G; try (left; apply Sm; reflexivity); try (left; apply Sm; apply H); try (left; apply Sm; apply H0).
  - left. apply Sm; destruct k0; reflexivity.
  - left. unfold m_flushing. sred. exists u, snap. unfold upd. destruct (Nat.eqb_spec n n0); [|auto]. congruence.
  - left. subst s'. unfold m_flushing. sred. exists u, snap. unfold upd. destruct (Nat.eqb_spec n (next s)); [lia|]. destruct (Nat.eqb_spec st st0); [|auto]. subst.
    destruct (i_M_upd _ _ _ (k_inv _ _ _ HO) _ _ Hu) as (_ & _ & Y & _). contradiction.
  - left. unfold m_flushing. sred. exists u, snap. unfold upd. destruct (Nat.eqb_spec st st0); [congruence|]. destruct (Nat.eqb_spec n (next s)); [lia|].
    destruct (Nat.eqb_spec n n0); auto. congruence.
  - destruct (ssh_frame c st0 (u_header u0) s1 H2) as (_ & _ & _ & _ & E1 & _ & _ & _ & _ & _ & _ & E3 & _ & _ & E2 & _). destruct (Nat.eq_dec st st0) as [->|Hne].
    + right. rewrite Hu in H0. injection H0 as <-. destruct (i_M_upd _ _ _ (k_inv _ _ _ HO) _ _ Hu) as (_ & Eg & _ & Eh & Y & _). split.
      * apply ssh_acked; auto. rewrite Eh, <- Hm. auto.
      * rewrite E3, H3. sred. rewrite Eg. unfold remove_sector. intros Hi. apply filter_In in Hi. destruct Hi as [_ Hi]. rewrite Nat.eqb_refl in Hi. discriminate.
    + left. unfold m_flushing. rewrite E1, E2. subst s1. sred. exists u, snap. unfold upd. destruct (Nat.eqb_spec st st0); [congruence|].
      destruct (Nat.eqb_spec n n0); auto. congruence.
  - left. apply Sm; unfold disconnect; destruct (_ && _); reflexivity.
Qed.

Lemma writing_done st n k t : m_writing st n (mask_of k) (X t) ->
  eventually t (fun u => mavail (X u) <> [] /\ exists n', m_flushing st n' (mask_of k) (X u)).
Proof.
  intros H. apply (until (fun t => m_writing st n (mask_of k) (X t)) _ _ (fun u Hu => m_writing_step _ _ _ _ _ _ (okX u) (gs u) Hu) (kr_meta _ _ _ KR n)); auto.
  intros u (w & ap & _ & _ & _ & E) E'. congruence.
Qed.
Lemma flushing_done st n k t : m_flushing st n (mask_of k) (X t) ->
  eventually t (fun u => acked st k (X u) /\ ~ In (group_of c st) (msec (X u))).
Proof.
  intros H. apply (until (fun t => m_flushing st n (mask_of k) (X t)) _ _ (fun u Hu => m_flushing_step _ _ _ _ _ _ (okX u) (gs u) Hu) (kr_meta _ _ _ KR n)); auto.
  intros u (w & ap & _ & _ & _ & E) E'. congruence.
Qed.

Lemma mask_kind s st u : Inv c hs s -> mupd s st = Some u -> exists k, u_mask u = mask_of k.
Proof. intros HI Hu. destruct (i_M_upd _ _ _ HI _ _ Hu) as (_ & _ & _ & _ & _ & [[Y _]|[Y _]]); [exists SetFetched|exists SetWritten]; auto. Qed.

Lemma update_stages s st u k : Ok s -> mupd s st = Some u -> u_mask u = mask_of k ->
  exists n, (u_stage u = MWriting /\ m_writing st n (mask_of k) s) \/ (u_stage u = MFlushing /\ m_flushing st n (mask_of k) s).
Proof.
  intros HO Hu Hm. destruct (em_op _ _ _ (j_em _ _ _ (k_inv2 _ _ _ HO)) st u) as (n & Hn); [intros []|auto|]. exists n.
  destruct (u_stage u) eqn:Es.
  - left. split; auto. destruct Hn as (g & ap & Hn). exists u, ap. destruct (i_M_write _ _ _ (k_inv _ _ _ HO) _ _ _ _ _ Hn) as (-> & _). auto.
  - right. split; auto. destruct Hn as (snap & Hn). exists u, snap. auto.
Qed.

Lemma update_done st u k t : mupd (X t) st = Some u -> u_mask u = mask_of k ->
  eventually t (fun v => acked st k (X v) /\ ~ In (group_of c st) (msec (X v))).
Proof.
  intros Hu Hm. destruct (update_stages (X t) st u k (okX t) Hu Hm) as (n & [[_ H]|[_ H]]).
  - eapply ev_trans; [apply (writing_done st n k t H)|]. intros v _ (_ & n' & H'). eapply flushing_done; eauto.
  - eapply flushing_done; eauto.
Qed.

(** A metadata buffer becomes available. *)
Lemma mavail_soon t : eventually t (fun u => mavail (X u) <> []).
Proof.
  destruct (mavail (X t)) eqn:E; [|apply ev_now; rewrite E; discriminate].
  destruct (em_pool _ _ _ (j_em _ _ _ (inv2X t)) 0 ltac:(unfold MAX_CONCURRENT_CHANGES; lia)) as [Y|(st & u & Hu & Hs & _)]; [rewrite E in Y; destruct Y|].
  destruct (mask_kind _ _ _ (invX t) Hu) as (k & Hk). destruct (update_stages (X t) st u k (okX t) Hu Hk) as (n & [[_ H]|[Y _]]); [|congruence].
  eapply ev_weaken; [|apply (writing_done st n k t H)]. intros v _ [Y _]. exact Y.
Qed.
(** Every metadata sector becomes free. *)
Lemma sector_free_soon g t : eventually t (fun u => ~ In g (msec (X u))).
Proof.
  destruct (in_dec Nat.eq_dec g (msec (X t))) as [Hi|Hi]; [|apply ev_now; auto].
  destruct (i_M_sec _ _ _ (invX t) g Hi) as (st & u & Hu & Hg). destruct (mask_kind _ _ _ (invX t) Hu) as (k & Hk).
  eapply ev_weaken; [|apply (update_done st u k t Hu Hk)]. intros v _ [_ Y]. now rewrite <- Hg.
Qed.

(** ** The queue of metadata updates *)
Lemma mqueue_gs s e s' : GS c s e s' -> (exists l, mqueue s' = mqueue s ++ l) \/
  (e = EWStartWrite /\ exists st k, mqueue s = (st, k) :: mqueue s' /\ (Ok s -> s' = fst (step c s e) -> acked st k s' \/ mupd_for st k s')).
Proof.
  intros G. assert (Sm0 : mqueue s' = mqueue s -> exists l, mqueue s' = mqueue s ++ l) by (intros E; exists []; now rewrite app_nil_r).
  destruct G; try (left; apply Sm0; reflexivity); try (left; apply Sm0; apply H); try (left; apply Sm0; apply H0); try (left; eexists; reflexivity).
  - left. apply Sm0. destruct k; reflexivity.
  - right. split; auto. exists st, k. split; auto. intros HO E. destruct (flag_recorded c hs s st k HO H0 H1) as [Y|Y]; [left|right; exact Y]. destruct k; exact Y.
  - right. split; auto. exists st, k. subst s'. split; auto. intros _ _. right. eexists. sred. unfold upd. rewrite Nat.eqb_refl. split; reflexivity.
  - left. apply Sm0. destruct (ssh_frame c st (u_header u) s1 H2) as (_ & _ & _ & -> & _). subst s1. reflexivity.
  - left. apply Sm0. unfold disconnect. destruct (_ && _); reflexivity.
Qed.

Lemma mfree_gs s e s' st k q : GS c s e s' -> mqueue s = (st, k) :: q -> (exists l, mqueue s' = mqueue s ++ l) ->
  (mavail s <> [] -> mavail s' <> []) /\ (forall g, ~ In g (msec s) -> ~ In g (msec s')).
Proof.
  intros G Eq (l & El).
  assert (Sm0 : mavail s' = mavail s -> msec s' = msec s -> (mavail s <> [] -> mavail s' <> []) /\ (forall g, ~ In g (msec s) -> ~ In g (msec s'))) by (intros -> ->; auto).
  assert (Pop : mqueue s' <> q).
  { intros E. rewrite E, Eq in El. apply (f_equal (@length _)) in El. rewrite app_length in El. cbn in El. lia. }
  destruct G; try (apply Sm0; reflexivity); try (apply Sm0; apply H); try (apply Sm0; apply H0).
  - apply Sm0; destruct k0; reflexivity.
  - exfalso. apply Pop. subst s'. sred. rewrite Eq in H. now injection H.
  - sred. split; auto. intros _ E. destruct (mavail s); discriminate.
  - destruct (ssh_frame c st0 (u_header u) s1 H2) as (_ & _ & _ & _ & _ & _ & _ & _ & _ & _ & -> & -> & _). subst s1. sred. split; auto.
    intros g Hg Hi. unfold remove_sector in Hi. apply filter_In in Hi. tauto.
  - unfold disconnect. destruct (_ && _); auto.
Qed.

Lemma write_pops s st k q : Good s -> mqueue s = (st, k) :: q -> mavail s <> [] -> ~ In (group_of c st) (msec s) ->
  mqueue (fst (step c s EWStartWrite)) = q.
Proof.
  intros [HO [Hp _] Hw _ _] Eq Ha Hg. unfold step, worker. rewrite Hp, Hw. cbn [fst]. unfold start_meta_write. rewrite Eq. destruct (mavail s); [congruence|]. cbv zeta.
  destruct (existsb (Nat.eqb (group_of c st)) (msec s)) eqn:Ex.
  { apply existsb_exists in Ex. destruct Ex as (g & Hi & Hg'). apply Nat.eqb_eq in Hg'. subst. contradiction. }
  destruct (_ <? _); [|reflexivity]. destruct (has_flag _ _); reflexivity.
Qed.

(** The first entry of the queue is eventually taken. *)
Lemma mqueue_head t st k l : (exists post, mqueue (X t) = (st, k) :: l ++ post) ->
  eventually t (fun u => (exists post, mqueue (X u) = l ++ post) /\ (acked st k (X u) \/ mupd_for st k (X u))).
Proof.
  set (Q := fun u => (exists post, mqueue (X u) = l ++ post) /\ (acked st k (X u) \/ mupd_for st k (X u))).
  set (B := fun u => exists post, mqueue (X u) = (st, k) :: l ++ post).
  assert (BQ : forall u, B u -> (B (S u) /\ exists l', mqueue (X (S u)) = mqueue (X u) ++ l') \/ Q (S u)).
  { intros u (post & E). destruct (mqueue_gs _ _ _ (gs u)) as [(l' & El)|(_ & st' & k' & E' & HA)].
    - left. split; [|eauto]. exists (post ++ l'). rewrite El, E. cbn. now rewrite <- app_assoc.
    - right. rewrite E in E'. injection E' as <- <- E'. split; [eauto|]. apply HA; [apply okX|apply X_S]. }
  set (B1 := fun u => B u /\ mavail (X u) <> []). set (B2 := fun u => B1 u /\ ~ In (group_of c st) (msec (X u))).
  assert (B1Q : forall u, B1 u -> B1 (S u) \/ Q (S u)).
  { intros u [HB Ha]. destruct (BQ u HB) as [[Y Z]|Y]; auto. left. split; auto. destruct HB as (post & E). apply (mfree_gs _ _ _ _ _ _ (gs u) E Z). auto. }
  assert (B2Q : forall u, B2 u -> B2 (S u) \/ Q (S u)).
  { intros u [[HB Ha] Hg]. destruct (BQ u HB) as [[Y Z]|Y]; auto. left. destruct HB as (post & E). destruct (mfree_gs _ _ _ _ _ _ (gs u) E Z) as [M1 M2]. split; [split|]; auto. }
  assert (BQ' : forall u, B u -> B (S u) \/ Q (S u)) by (intros u HB; destruct (BQ u HB) as [[Y _]|Y]; auto).
  intros HB.
  eapply ev_trans; [apply (meanwhile B Q _ t BQ' HB (mavail_soon t))|]. intros u _ [Y|Y]; [apply ev_now; exact Y|].
  eapply ev_trans; [apply (meanwhile B1 Q _ u B1Q Y (sector_free_soon (group_of c st) u))|]. intros v _ [Z|Z]; [apply ev_now; exact Z|].
  apply (until B2 Q _ B2Q (kr_write _ _ _ KR)); [|exact Z].
  intros w [[(post & E) Ha] Hg] Hw. destruct (mqueue_gs _ _ _ (gs w)) as [(l' & El)|(_ & st' & k' & E' & HA)].
  - exfalso. pose proof (write_pops (X w) st k _ (good w) E Ha Hg) as P. rewrite <- Hw, <- X_S, El, E in P.
    apply (f_equal (@length _)) in P. cbn in P. rewrite !app_length in P. lia.
  - rewrite E in E'. injection E' as <- <- E'. split; [eauto|]. apply HA; [apply okX|apply X_S].
Qed.

(** Every queued update is eventually recorded. *)
Lemma mqueue_done st k : forall pre t, (exists post, mqueue (X t) = pre ++ (st, k) :: post) -> eventually t (fun u => acked st k (X u) \/ mupd_for st k (X u)).
Proof.
  induction pre as [|[st' k'] pre IH]; intros t (post & E).
  - eapply ev_weaken; [|apply (mqueue_head t st k []); exists post; exact E]. intros u _ [_ Y]. exact Y.
  - eapply ev_trans; [apply (mqueue_head t st' k' (pre ++ [(st, k)])); exists post; rewrite E; cbn; now rewrite <- app_assoc|].
    intros u _ [(post' & E') _]. apply IH. exists post'. rewrite E'. now rewrite <- app_assoc.
Qed.

Lemma recording_done st k t : recording st k (X t) -> eventually t (fun u => acked st k (X u)).
Proof.
  assert (M : forall u, mupd_for st k (X u) -> eventually u (fun v => acked st k (X v))).
  { intros u (w & Hw & Hm). eapply ev_weaken; [|apply (update_done st w k u Hw Hm)]. intros v _ [Y _]. exact Y. }
  intros [H|[H|H]]; [apply ev_now; auto| |auto]. apply in_split in H. destruct H as (pre & post & E).
  eapply ev_trans; [apply (mqueue_done st k pre t); eauto|]. intros u _ [Y|Y]; [apply ev_now; auto|auto].
Qed.

(** ** Fetches complete *)

Definition f_src (st n r : nat) (s : state V) : Prop :=
  fsts s st = Some FFetching /\ fret s st = r /\ exists b, sops s n = Some (st, b).
Definition f_wr (st n r : nat) (s : state V) : Prop :=
  fsts s st = Some FFetching /\ fret s st = r /\ exists off len d ap, ops s n = Some (mk_op (OFetch st) DBase (KWrite off len d ap)).
Definition f_fl (st n r : nat) (s : state V) : Prop :=
  fsts s st = Some FFlushing /\ fret s st = r /\ exists snap, ops s n = Some (mk_op (OFetch st) DBase (KFlush snap)).
Definition f_retry (st r : nat) (s : state V) : Prop :=
  favail s <> [] /\ fsts s st = Some FQueued /\ fret s st = S r /\ r < MAX_FETCH_RETRIES.
Definition f_done (st : nat) (s : state V) : Prop := favail s <> [] /\ fsts s st = Some FFetched.

Lemma app_one {A} (l : list A) x : l ++ [x] <> [].
Proof. destruct l; discriminate. Qed.

Lemma retry_f st b (s : state V) : fret s st < MAX_FETCH_RETRIES -> f_retry st (fret s st) (retry st b s).
Proof.
  intros H. unfold f_retry, retry. sred. unfold upd. rewrite !Nat.eqb_refl. split; [apply app_one|auto].
Qed.

Lemma fq_queued s st q : Ok s -> fq s = st :: q -> fsts s st = Some FQueued.
Proof. intros HO E. apply (proj2 (i_F_queue _ _ _ (k_inv _ _ _ HO))). rewrite E. now left. Qed.

Ltac ne_st := match goal with |- context[Nat.eqb ?a ?b] => destruct (Nat.eqb_spec a b); [exfalso; subst|] end.

Lemma f_src_step s e s' st n r : Ok s -> GS c s e s' -> f_src st n r s ->
  f_src st n r s' \/ (exists n', f_wr st n' r s') \/ f_retry st r s'.
Proof.
  intros HO G (Hf & Hr & b & Hs). pose proof (k_inv _ _ _ HO) as HI. pose proof (i_N_sops _ _ _ HI _ _ Hs) as Hn.
  assert (Sm : fsts s' = fsts s -> fret s' = fret s -> sops s' = sops s -> f_src st n r s') by (intros E1 E2 E3; split; [|split; [|exists b]]; congruence).
  assert (Nop : forall m dv k, ops s m = Some (mk_op (OFetch st) dv k) -> False) by (intros m dv k Y; eapply (i_F_uniq _ _ _ HI n m); eauto).
  destruct G; try (left; apply Sm; reflexivity); try (left; apply Sm; apply H); try (left; apply Sm; apply H0).
  - left. apply Sm; destruct k; reflexivity.
  - left. unfold f_src. sred. unfold upd. destruct (Nat.eqb_spec st st0); [exfalso; subst; eauto|]. eauto.
  - left. unfold f_src, finish. sred. unfold upd. destruct (Nat.eqb_spec st st0); [exfalso; subst; eauto|]. eauto.
  - left. unfold f_src, retry. sred. unfold upd. destruct (Nat.eqb_spec st st0); [exfalso; subst; eauto|]. eauto.
  - left. unfold f_src. sred. unfold upd. destruct (Nat.eqb_spec st st0); [exfalso; subst; congruence|]. eauto.
  - left. unfold f_src. sred. unfold upd. destruct (Nat.eqb_spec st st0); [exfalso; subst; congruence|]. eauto.
  - left. pose proof (fq_queued _ _ _ HO H) as Hq. unfold f_src, take. sred. unfold upd. destruct (Nat.eqb_spec st st0); [exfalso; subst; congruence|].
    destruct (Nat.eqb_spec n (next s)); [lia|]. eauto.
  - left. pose proof (fq_queued _ _ _ HO H) as Hq. unfold f_src, retry, take. sred. unfold upd. destruct (Nat.eqb_spec st st0); [exfalso; subst; congruence|]. eauto.
  - destruct (Nat.eq_dec n n0) as [->|Hne].
    + right. left. rewrite Hs in H. injection H as <- <-. exists (next s). unfold f_wr. sred. unfold upd. rewrite Nat.eqb_refl. eauto 10.
    + left. unfold f_src. sred. unfold upd. destruct (Nat.eqb_spec n n0); [congruence|]. eauto.
  - destruct (Nat.eq_dec n n0) as [->|Hne].
    + right. right. rewrite Hs in H. injection H as <- <-. rewrite <- Hr. apply (retry_f st b (set_sops (upd (sops s) n0 None) s)). exact H1.
    + left. assert (st <> st0) by (intros ->; apply Hne; eapply (i_F_uniq_sop _ _ _ HI); eauto).
      unfold f_src, retry. sred. unfold upd. destruct (Nat.eqb_spec st st0); [congruence|]. destruct (Nat.eqb_spec n n0); [congruence|]. eauto.
  - left. subst s'. apply Sm; reflexivity.
  - left. destruct (ssh_frame c st0 (u_header u) s1 H2) as (E1 & _ & _ & _ & _ & _ & _ & _ & _ & _ & _ & _ & _ & E3 & _ & _ & E2 & _).
    apply Sm; rewrite ?E1, ?E2, ?E3; subst s1; reflexivity.
  - left. apply Sm; unfold disconnect; destruct (_ && _); reflexivity.
Qed.

Lemma f_wr_step s e s' st n r : Ok s -> GS c s e s' -> f_wr st n r s ->
  f_wr st n r s' \/ (exists n', f_fl st n' r s') \/ f_retry st r s'.
Proof.
  intros HO G (Hf & Hr & off & len & d & ap & Hs). pose proof (k_inv _ _ _ HO) as HI. pose proof (i_N_ops _ _ _ HI _ _ Hs) as Hn.
  assert (Sm : fsts s' = fsts s -> fret s' = fret s -> ops s' n = ops s n -> f_wr st n r s') by (intros E1 E2 E3; split; [|split; [|exists off, len, d, ap]]; congruence).
  assert (Sg : guest_frame s s' -> f_wr st n r s').
  { intros GF. apply Sm; try apply GF. apply (g_ops _ _ GF) in Hs. rewrite Hs. symmetry. now apply (g_ops _ _ GF). }
  assert (Nsop : forall m b, sops s m = Some (st, b) -> False) by (intros m b Y; eapply (i_F_uniq _ _ _ HI m n); eauto).
  assert (Uop : forall m dv k, ops s m = Some (mk_op (OFetch st) dv k) -> m = n) by (intros m dv k Y; eapply (i_F_uniq_op _ _ _ HI m n); eauto).
  assert (En : forall v, upd (ops s) (next s) v n = ops s n) by (intros v; unfold upd; destruct (Nat.eqb_spec n (next s)); [lia|auto]).
  destruct G; try (left; apply Sm; reflexivity); try (left; apply Sg; assumption).
  - left. assert (n <> n0) by congruence. apply Sm; try (destruct k; reflexivity). destruct k; cbn [complete_medium]; sred; unfold upd; (destruct (Nat.eqb_spec n n0); [congruence|auto]).
  - destruct (Nat.eq_dec n n0) as [->|Hne].
    + right. left. rewrite Hs in H. injection H as <- _ _ _ _. exists (next s). unfold f_fl, start_flush. sred. unfold upd. rewrite !Nat.eqb_refl. eauto.
    + left. assert (st <> st0) by (intros ->; apply Hne; symmetry; eauto). unfold f_wr, start_flush. sred. unfold upd. destruct (Nat.eqb_spec st st0); [congruence|].
      destruct (Nat.eqb_spec n (next s)); [lia|]. destruct (Nat.eqb_spec n n0); [congruence|]. eauto 10.
  - left. assert (n <> n0) by congruence. assert (st <> st0) by (intros ->; apply H1; symmetry; eauto). unfold f_wr, finish. sred. unfold upd. destruct (Nat.eqb_spec st st0); [congruence|].
    destruct (Nat.eqb_spec n n0); [congruence|]. eauto 10.
  - destruct (Nat.eq_dec n n0) as [->|Hne].
    + right. right. rewrite Hs in H. injection H as <- _. rewrite <- Hr. apply (retry_f st b (set_ops (upd (ops s) n0 None) s)). exact H1.
    + left. assert (st <> st0) by (intros ->; apply Hne; symmetry; eauto). unfold f_wr, retry. sred. unfold upd. destruct (Nat.eqb_spec st st0); [congruence|].
      destruct (Nat.eqb_spec n n0); [congruence|]. eauto 10.
  - left. unfold f_wr. sred. split; [auto|split; [auto|]]. unfold upd. destruct (Nat.eqb_spec n n0); [|eauto]. subst. rewrite Hs in H0. injection H0 as <- <- <-.
    destruct k' as [off' len' d' ap'| |]; [|destruct H1|destruct H1]. eauto.
  - left. unfold f_wr. sred. unfold upd. destruct (Nat.eqb_spec st st0); [exfalso; subst; congruence|]. eauto 10.
  - left. unfold f_wr. sred. unfold upd. destruct (Nat.eqb_spec st st0); [exfalso; subst; congruence|]. eauto 10.
  - left. pose proof (fq_queued _ _ _ HO H) as Hq. unfold f_wr, take. sred. unfold upd. destruct (Nat.eqb_spec st st0); [exfalso; subst; congruence|]. eauto 10.
  - left. pose proof (fq_queued _ _ _ HO H) as Hq. unfold f_wr, retry, take. sred. unfold upd. destruct (Nat.eqb_spec st st0); [exfalso; subst; congruence|]. eauto 10.
  - left. apply Sm; sred; auto.
  - left. assert (st <> st0) by (intros ->; eauto). unfold f_wr, retry. sred. unfold upd. destruct (Nat.eqb_spec st st0); [congruence|]. eauto 10.
  - left. subst s'. apply Sm; reflexivity.
  - left. destruct (ssh_frame c st0 (u_header u) s1 H2) as (E1 & _ & _ & _ & _ & _ & _ & _ & _ & _ & _ & _ & E3 & _ & _ & _ & E2 & _).
    apply Sm; rewrite ?E1, ?E2, ?E3; subst s1; reflexivity.
  - left. apply Sm; unfold disconnect; destruct (_ && _); reflexivity.
Qed.

Lemma f_fl_step s e s' st n r : Ok s -> GS c s e s' -> f_fl st n r s -> f_fl st n r s' \/ f_done st s' \/ f_retry st r s'.
Proof.
  intros HO G (Hf & Hr & snap & Hs). pose proof (k_inv _ _ _ HO) as HI. pose proof (i_N_ops _ _ _ HI _ _ Hs) as Hn.
  assert (Sm : fsts s' = fsts s -> fret s' = fret s -> ops s' n = ops s n -> f_fl st n r s') by (intros E1 E2 E3; split; [|split; [|exists snap]]; congruence).
  assert (Sg : guest_frame s s' -> f_fl st n r s').
  { intros GF. apply Sm; try apply GF. apply (g_ops _ _ GF) in Hs. rewrite Hs. symmetry. now apply (g_ops _ _ GF). }
  assert (Nsop : forall m b, sops s m = Some (st, b) -> False) by (intros m b Y; eapply (i_F_uniq _ _ _ HI m n); eauto).
  assert (Uop : forall m dv k, ops s m = Some (mk_op (OFetch st) dv k) -> m = n) by (intros m dv k Y; eapply (i_F_uniq_op _ _ _ HI m n); eauto).
  assert (En : forall v, upd (ops s) (next s) v n = ops s n) by (intros v; unfold upd; destruct (Nat.eqb_spec n (next s)); [lia|auto]).
  destruct G; try (left; apply Sm; reflexivity); try (left; apply Sg; assumption).
  - left. assert (n <> n0) by congruence. apply Sm; try (destruct k; reflexivity). destruct k; cbn [complete_medium]; sred; unfold upd; (destruct (Nat.eqb_spec n n0); [congruence|auto]).
  - left. assert (n <> n0) by congruence. assert (st <> st0) by (intros ->; apply H0; symmetry; eauto). unfold f_fl, start_flush. sred. unfold upd. destruct (Nat.eqb_spec st st0); [congruence|].
      destruct (Nat.eqb_spec n (next s)); [lia|]. destruct (Nat.eqb_spec n n0); [congruence|]. eauto.
  - destruct (Nat.eq_dec n n0) as [->|Hne].
    + right. left. rewrite Hs in H. injection H as <- _. unfold f_done, finish. sred. unfold upd. rewrite !Nat.eqb_refl. split; [apply app_one|auto].
    + left. assert (st <> st0) by (intros ->; apply Hne; symmetry; eauto). unfold f_fl, finish. sred. unfold upd. destruct (Nat.eqb_spec st st0); [congruence|].
      destruct (Nat.eqb_spec n n0); [congruence|]. eauto.
  - destruct (Nat.eq_dec n n0) as [->|Hne].
    + right. right. rewrite Hs in H. injection H as <- _. rewrite <- Hr. apply (retry_f st b (set_ops (upd (ops s) n0 None) s)). exact H1.
    + left. assert (st <> st0) by (intros ->; apply Hne; symmetry; eauto). unfold f_fl, retry. sred. unfold upd. destruct (Nat.eqb_spec st st0); [congruence|].
      destruct (Nat.eqb_spec n n0); [congruence|]. eauto.
  - left. unfold f_fl. sred. split; [auto|split; [auto|]]. unfold upd. destruct (Nat.eqb_spec n n0); [|eauto]. subst. rewrite Hs in H0. injection H0 as <- <- <-. destruct k'; destruct H1.
  - left. unfold f_fl. sred. unfold upd. destruct (Nat.eqb_spec st st0); [exfalso; subst; congruence|]. eauto.
  - left. unfold f_fl. sred. unfold upd. destruct (Nat.eqb_spec st st0); [exfalso; subst; congruence|]. eauto.
  - left. pose proof (fq_queued _ _ _ HO H) as Hq. unfold f_fl, take. sred. unfold upd. destruct (Nat.eqb_spec st st0); [exfalso; subst; congruence|]. eauto.
  - left. pose proof (fq_queued _ _ _ HO H) as Hq. unfold f_fl, retry, take. sred. unfold upd. destruct (Nat.eqb_spec st st0); [exfalso; subst; congruence|]. eauto.
  - left. apply Sm; sred; auto.
  - left. assert (st <> st0) by (intros ->; eauto). unfold f_fl, retry. sred. unfold upd. destruct (Nat.eqb_spec st st0); [congruence|]. eauto.
  - left. subst s'. apply Sm; reflexivity.
  - left. destruct (ssh_frame c st0 (u_header u) s1 H2) as (E1 & _ & _ & _ & _ & _ & _ & _ & _ & _ & _ & _ & E3 & _ & _ & _ & E2 & _).
    apply Sm; rewrite ?E1, ?E2, ?E3; subst s1; reflexivity.
  - left. apply Sm; unfold disconnect; destruct (_ && _); reflexivity.
Qed.

Lemma fetching_done st r t : fsts (X t) st = Some FFetching \/ fsts (X t) st = Some FFlushing -> fret (X t) st = r ->
  eventually t (fun u => f_done st (X u) \/ f_retry st r (X u)).
Proof.
  assert (FL : forall t n, f_fl st n r (X t) -> eventually t (fun u => f_done st (X u) \/ f_retry st r (X u))).
  { intros t' n. apply (until (fun t => f_fl st n r (X t)) _ _ (fun u Hu => f_fl_step _ _ _ _ _ _ (okX u) (gs u) Hu) (kr_base _ _ _ KR n)).
    intros u (_ & _ & w & E) E'. congruence. }
  assert (WR : forall t n, f_wr st n r (X t) -> eventually t (fun u => f_done st (X u) \/ f_retry st r (X u))).
  { intros t' n H. apply (ev_trans t' (fun u => (exists n', f_fl st n' r (X u)) \/ f_retry st r (X u))).
    - apply (until (fun t => f_wr st n r (X t)) _ _ (fun u Hu => f_wr_step _ _ _ _ _ _ (okX u) (gs u) Hu) (kr_base _ _ _ KR n)); [|exact H].
      intros u (_ & _ & w & ? & ? & ? & E) E'. congruence.
    - intros u _ [(n' & Y)|Y]; [eauto|apply ev_now; auto]. }
  assert (SR : forall t n, f_src st n r (X t) -> eventually t (fun u => f_done st (X u) \/ f_retry st r (X u))).
  { intros t' n H. apply (ev_trans t' (fun u => (exists n', f_wr st n' r (X u)) \/ f_retry st r (X u))).
    - apply (until (fun t => f_src st n r (X t)) _ _ (fun u Hu => f_src_step _ _ _ _ _ _ (okX u) (gs u) Hu) (kr_source _ _ _ KR n)); [|exact H].
      intros u (_ & _ & w & E) E'. congruence.
    - intros u _ [(n' & Y)|Y]; [eauto|apply ev_now; auto]. }
  intros Hf Hr. pose proof (j_ef _ _ _ (inv2X t)) as EF. destruct Hf as [Hf|Hf].
  - destruct (ef_src _ _ EF st (fun x => x) Hf) as [(n & b & Y)|(n & dv & off & len & d & ap & Y)].
    + apply (SR t n). split; [|split]; eauto.
    + apply (WR t n). destruct (i_F_op _ _ _ (invX t) _ _ _ _ Y) as [-> _]. split; [|split]; eauto 10.
  - destruct (ef_flush _ _ EF st (fun x => x) Hf) as (n & dv & snap & Y). apply (FL t n). destruct (i_F_op _ _ _ (invX t) _ _ _ _ Y) as [-> _]. split; [|split]; eauto.
Qed.

Lemma favail_soon t : eventually t (fun u => favail (X u) <> []).
Proof.
  destruct (favail (X t)) eqn:E; [|apply ev_now; rewrite E; discriminate].
  destruct (ef_pool _ _ (j_ef _ _ _ (inv2X t)) 0 ltac:(unfold MAX_CONCURRENT_FETCHES; lia)) as [Y|(st & Hb)]; [rewrite E in Y; destruct Y|].
  destruct (i_F_buf _ _ _ (invX t) _ _ Hb) as (Hf & _). eapply ev_weaken; [|apply (fetching_done st _ t Hf eq_refl)].
  intros u _ [Y|Y]; apply Y.
Qed.

(** ** The queue of fetches *)

(** The stripe [x] was taken from the front of the queue, leaving [q]. *)
Definition f_started (x r : nat) (s : state V) : Prop :=
  (fsts s x = Some FFetching /\ fret s x = r) \/ (fsts s x = Some FQueued /\ fret s x = S r /\ r < MAX_FETCH_RETRIES).
Definition f_popped (s : state V) (x : nat) (q : list nat) (s' : state V) : Prop :=
  (exists l, fq s' = q ++ l) /\ (forall y, In y q -> fret s' y = fret s y) /\ f_started x (fret s x) s'.

Lemma fq_gs s e s' x q : Ok s -> GS c s e s' -> fq s = x :: q ->
  ((exists l, fq s' = fq s ++ l) /\ (forall y, In y (fq s) -> fret s' y = fret s y) /\ (favail s <> [] -> favail s' <> [])) \/ f_popped s x q s'.
Proof.
  intros HO G Eq. pose proof (k_inv _ _ _ HO) as HI.
  assert (NQ : forall st, In st (fq s) -> fsts s st = Some FQueued) by (apply (i_F_queue _ _ _ HI)).
  assert (Sm : fq s' = fq s -> fret s' = fret s -> (favail s <> [] -> favail s' <> []) ->
     ((exists l, fq s' = fq s ++ l) /\ (forall y, In y (fq s) -> fret s' y = fret s y) /\ (favail s <> [] -> favail s' <> [])) \/ f_popped s x q s').
  { intros E1 E2 E3. left. split; [exists []; now rewrite app_nil_r|]. split; auto. intros. now rewrite E2. }
  assert (Sg : guest_frame s s' -> ((exists l, fq s' = fq s ++ l) /\ (forall y, In y (fq s) -> fret s' y = fret s y) /\ (favail s <> [] -> favail s' <> [])) \/ f_popped s x q s').
  { intros GF. apply Sm; try apply GF. now rewrite (g_favail _ _ GF). }
  assert (ND : ~ In x q) by (destruct (i_F_queue _ _ _ HI) as [Y _]; rewrite Eq in Y; now inversion Y).
  destruct G; try (apply Sm; auto; reflexivity); try (apply Sg; assumption).
  - apply Sm; destruct k; auto.
  - left. assert (st <> x /\ ~ In st q) as [Y1 Y2].
    { destruct (i_F_op _ _ _ HI _ _ _ _ H) as [_ Y]. split; [intros ->|intros Hi]; [rewrite NQ in Y by (rewrite Eq; now left)|rewrite NQ in Y by (rewrite Eq; now right)]; discriminate. }
    unfold finish. sred. rewrite Eq. split; [exists []; now rewrite app_nil_r|]. split; [|intros _; apply app_one].
    intros y Hy. unfold upd. destruct (Nat.eqb_spec y st); auto. subst. destruct Hy; congruence || contradiction.
  - left. assert (st <> x /\ ~ In st q) as [Y1 Y2].
    { destruct (i_F_buf _ _ _ HI _ _ H0) as [Y _]. split; [intros ->|intros Hi]; [rewrite NQ in Y by (rewrite Eq; now left)|rewrite NQ in Y by (rewrite Eq; now right)]; destruct Y; discriminate. }
    unfold retry. sred. rewrite Eq. split; [exists [st]; reflexivity|]. split; [|intros _; apply app_one].
    intros y Hy. unfold upd. destruct (Nat.eqb_spec y st); auto. subst. destruct Hy; congruence || contradiction.
  - left. sred. split; [exists [st]; reflexivity|]. auto.
  - congruence.
  - right. rewrite Eq in H. injection H as <- <-. unfold f_popped, f_started, take. sred. split; [exists []; now rewrite app_nil_r|]. split; auto.
    left. unfold upd. rewrite Nat.eqb_refl. auto.
  - right. rewrite Eq in H. injection H as <- <-. unfold f_popped, f_started, retry, take. sred. split; [eauto|]. split.
    + intros y Hy. unfold upd. destruct (Nat.eqb_spec y x); auto. subst. contradiction.
    + right. unfold upd. rewrite !Nat.eqb_refl. auto.
  - left. assert (st <> x /\ ~ In st q) as [Y1 Y2].
    { destruct (i_F_buf _ _ _ HI _ _ H0) as [Y _]. split; [intros ->|intros Hi]; [rewrite NQ in Y by (rewrite Eq; now left)|rewrite NQ in Y by (rewrite Eq; now right)]; destruct Y; discriminate. }
    unfold retry. sred. rewrite Eq. split; [exists [st]; reflexivity|]. split; [|intros _; apply app_one].
    intros y Hy. unfold upd. destruct (Nat.eqb_spec y st); auto. subst. destruct Hy; congruence || contradiction.
  - subst s'. apply Sm; auto.
  - destruct (ssh_frame c st (u_header u) s1 H2) as (_ & _ & _ & _ & _ & _ & _ & _ & E1 & E3 & _ & _ & _ & _ & _ & _ & E2 & _).
    apply Sm; rewrite ?E1, ?E2, ?E3; subst s1; auto.
  - apply Sm; unfold disconnect; destruct (_ && _); auto.
Qed.

Lemma start_pops s a x q : Good s -> no_failed (fst (step c s (EWStartFetch a))) -> fq s = x :: q -> favail s <> [] ->
  f_popped s x q (fst (step c s (EWStartFetch a))).
Proof.
  intros [HO [Hp _] Hw _ _] Hn Eq Ha. unfold step, worker in *. rewrite Hp, Hw in *. cbn [fst] in *. unfold start_fetch in *. rewrite Eq in *.
  pose proof (k_inv _ _ _ HO) as HI. destruct (i_F_queue _ _ _ HI) as [ND _]. rewrite Eq in ND. inversion ND as [|? ? Hnx _]. subst.
  destruct (favail s) as [|b av] eqn:Ea; [congruence|]. cbv zeta in *. destruct (queued_unrel c hs s x q HI Eq) as [Hst Hr].
  destruct (source_accepts _ _ _ _).
  - unfold f_popped, f_started. sred. split; [exists []; now rewrite app_nil_r|]. split; auto. left. unfold upd. rewrite Nat.eqb_refl. auto.
  - destruct (completed_false c x b (take x b q av s)) as [Y Z]; auto; unfold take; sred; auto.
    + unfold upd. now rewrite Nat.eqb_refl.
    + unfold upd. now rewrite Nat.eqb_refl.
    + apply (i_F_pool _ _ _ HI). rewrite Ea. now left.
    + unfold take in Y, Z. sred. rewrite Z. unfold f_popped, f_started, retry. sred. split; [eauto|]. split.
      * intros y Hy. unfold upd. destruct (Nat.eqb_spec y x); auto. subst. contradiction.
      * right. unfold upd. rewrite !Nat.eqb_refl. auto.
Qed.

Lemma fq_head t x l (f : nat -> nat) : (exists post, fq (X t) = x :: l ++ post) -> (forall y, In y (x :: l) -> fret (X t) y = f y) ->
  eventually t (fun u => (exists post, fq (X u) = l ++ post) /\ (forall y, In y l -> fret (X u) y = f y) /\ f_started x (f x) (X u)).
Proof.
  set (Q := fun u => (exists post, fq (X u) = l ++ post) /\ (forall y, In y l -> fret (X u) y = f y) /\ f_started x (f x) (X u)).
  set (B := fun u => (exists post, fq (X u) = x :: l ++ post) /\ (forall y, In y (x :: l) -> fret (X u) y = f y)).
  intros H1 H2. assert (HB : B t) by (split; auto). clear H1 H2.
  assert (PQ : forall u, B u -> forall post, fq (X u) = x :: l ++ post -> f_popped (X u) x (l ++ post) (X (S u)) -> Q (S u)).
  { intros u [_ Hf] post E ((l' & El) & Hr & Hs). split; [|split].
    - exists (post ++ l'). now rewrite El, <- app_assoc.
    - intros y Hy. rewrite Hr by (rewrite in_app_iff; auto). apply Hf. now right.
    - rewrite (Hf x) in Hs by now left. exact Hs. }
  assert (BQ : forall u, B u -> (B (S u) /\ (favail (X u) <> [] -> favail (X (S u)) <> [])) \/ Q (S u)).
  { intros u HBu. pose proof HBu as [(post & E) Hf]. destruct (fq_gs _ _ _ _ _ (okX u) (gs u) E) as [((l' & El) & Hr & Ha)|Y]; [|right; eauto].
    left. split; auto. split.
    - exists (post ++ l'). rewrite El, E. cbn. now rewrite <- app_assoc.
    - intros y Hy. rewrite Hr; auto. rewrite E. destruct Hy; [now left|right; rewrite in_app_iff; auto]. }
  set (B1 := fun u => B u /\ favail (X u) <> []).
  assert (B1Q : forall u, B1 u -> B1 (S u) \/ Q (S u)).
  { intros u [HBu Ha]. destruct (BQ u HBu) as [[Y Z]|Y]; auto. left. split; auto. }
  assert (BQ' : forall u, B u -> B (S u) \/ Q (S u)) by (intros u HBu; destruct (BQ u HBu) as [[Y _]|Y]; auto).
  eapply ev_trans; [apply (meanwhile B Q _ t BQ' HB (favail_soon t))|]. intros u _ [Y|Y]; [apply ev_now; exact Y|].
  apply (until B1 Q _ B1Q (kr_start _ _ _ KR)); [|exact Y].
  intros w [HBw Ha] (a & Hw). pose proof HBw as [(post & E) Hf]. eapply PQ; eauto. rewrite X_S, Hw. apply start_pops; auto; [apply good|].
  rewrite <- Hw, <- X_S. intros st. apply (ne_fetch _ _ _ NE).
Qed.

Lemma fq_pos st r : forall pre t, (exists post, fq (X t) = pre ++ st :: post) -> fret (X t) st = r -> eventually t (fun u => f_started st r (X u)).
Proof.
  induction pre as [|x pre IH]; intros t (post & E) Hr.
  - subst r. eapply ev_weaken; [|apply (fq_head t st [] (fret (X t))); [exists post; exact E|auto]]. intros u _ (_ & _ & Y). exact Y.
  - eapply ev_trans.
    + apply (fq_head t x (pre ++ [st]) (fret (X t))); [exists post; rewrite E; cbn; now rewrite <- app_assoc|auto].
    + intros u _ ((post' & E') & Hf & _). apply IH; [exists post'; rewrite E'; now rewrite <- app_assoc|]. rewrite <- Hr. apply Hf. rewrite in_app_iff. cbn. auto.
Qed.

(** Every fetch that has begun ends with the stripe written and flushed. *)
Lemma fetch_done st : forall k t, MAX_FETCH_RETRIES - fret (X t) st = k -> fsts (X t) st <> None -> eventually t (fun u => fsts (X u) st = Some FFetched).
Proof.
  intros k. induction k as [k IH] using lt_wf_ind. intros t Ek Hf.
  assert (RT : forall u, fsts (X u) st = Some FQueued -> fret (X u) st = S (fret (X t) st) -> fret (X t) st < MAX_FETCH_RETRIES -> eventually u (fun u => fsts (X u) st = Some FFetched)).
  { intros u A B C. apply (IH (MAX_FETCH_RETRIES - fret (X u) st)); [lia|auto|congruence]. }
  assert (AC : forall u, fsts (X u) st = Some FFetching \/ fsts (X u) st = Some FFlushing -> fret (X u) st = fret (X t) st -> eventually u (fun u => fsts (X u) st = Some FFetched)).
  { intros u A B. eapply ev_trans; [apply (fetching_done st (fret (X t) st) u A B)|]. intros v _ [[_ Y]|(_ & Y1 & Y2 & Y3)]; [apply ev_now; auto|auto]. }
  destruct (fsts (X t) st) as [[]|] eqn:E; [| | | |congruence].
  - pose proof (proj2 (proj2 (i_F_queue _ _ _ (invX t)) st) E) as Hi. apply in_split in Hi. destruct Hi as (pre & post & Eq).
    eapply ev_trans; [apply (fq_pos st (fret (X t) st) pre t); eauto|]. intros u _ [[A B]|(A & B & C)]; auto.
  - apply AC; auto.
  - apply AC; auto.
  - apply ev_now; auto.
Qed.

(** ** Finished fetches are recorded *)
Lemma comes_done st t : comes st (X t) -> eventually t (fun u => shf (X u) st = Fetched).
Proof.
  intros [H|H]; [|apply (recording_done st SetFetched t H)].
  eapply ev_trans; [|intros u _ Hu; apply (recording_done st SetFetched u Hu)].
  apply (until (fun u => In (st, true) (ffin (X u))) (fun u => recording st SetFetched (X u)) (fun u => ev u = EWTakeFinished)); auto; [|apply (kr_fin _ _ _ KR)|].
  - intros u Hu. apply (comes_step c hs (X u) (ev u) (X (S u)) st (okX u) (okX (S u)) (X_S u) (gs u)). left. auto.
  - intros u Hu Hv. destruct (good u) as [_ [Hp _] Hw _ _]. rewrite X_S, Hv. unfold step, worker. rewrite Hp, Hw. cbn [fst]. right. left.
    unfold take_finished_fetches. sred. rewrite in_app_iff. right. apply in_map_iff. exists (st, true). split; auto. apply filter_In. auto.
Qed.

Lemma fsts_done st t : fsts (X t) st <> None -> eventually t (fun u => shf (X u) st = Fetched).
Proof.
  intros H. eapply ev_trans; [apply (fetch_done st _ t eq_refl H)|]. intros u _ Hu. apply comes_done. apply (l_fet _ _ _ (d_li _ (good u))). auto.
Qed.

(** ** The worker's request queue *)
Definition handled (x : bgreq) (s : state V) : Prop :=
  match x with
  | BFetch st => released (shf s st) = true \/ fsts s st <> None
  | BSetWritten st => In (st, SetWritten) (mqueue s)
  end.

Lemma mq_gs s e s' : GS c s e s' -> (exists l, mq s' = mq s ++ l) \/ (e = EWRecv /\ exists x, mq s = x :: mq s' /\ handled x s').
Proof.
  intros G. assert (Sm0 : mq s' = mq s -> exists l, mq s' = mq s ++ l) by (intros E; exists []; now rewrite app_nil_r).
  destruct G; try (left; apply Sm0; reflexivity); try (left; apply Sm0; assumption).
  - left. apply H3.
  - left. apply Sm0. destruct k; reflexivity.
  - right. split; auto. exists (BFetch st). split; auto. right. sred. unfold upd. rewrite Nat.eqb_refl. discriminate.
  - right. split; auto. exists (BFetch st). split; auto.
  - right. split; auto. exists (BSetWritten st). split; auto. cbn [handled]. sred. rewrite in_app_iff. cbn. auto.
  - left. apply Sm0. subst s'. reflexivity.
  - left. apply Sm0. destruct (ssh_frame c st (u_header u) s1 H2) as (_ & -> & _). subst s1. reflexivity.
  - left. apply Sm0. unfold disconnect. destruct (_ && _); reflexivity.
Qed.

Lemma recv_pops s x q : Good s -> mq s = x :: q -> mq (fst (step c s EWRecv)) = q.
Proof.
  intros [HO [Hp _] Hw _ _] E. unfold step, worker. rewrite Hp, Hw. cbn [fst]. unfold worker_recv. rewrite E. destruct x as [st|st]; [|reflexivity].
  unfold handle_fetch_request. destruct (_ <? _); [|reflexivity]. destruct (released _); [reflexivity|]. sred. destruct (fsts s st); reflexivity.
Qed.

Lemma mq_head t x l : (exists post, mq (X t) = x :: l ++ post) -> eventually t (fun u => (exists post, mq (X u) = l ++ post) /\ handled x (X u)).
Proof.
  apply (until (fun u => exists post, mq (X u) = x :: l ++ post) (fun u => (exists post, mq (X u) = l ++ post) /\ handled x (X u)) (fun u => ev u = EWRecv)).
  - intros u (post & E). destruct (mq_gs _ _ _ (gs u)) as [(l' & El)|(_ & y & E' & HA)].
    + left. exists (post ++ l'). rewrite El, E. cbn. now rewrite <- app_assoc.
    + right. rewrite E in E'. injection E' as <- E'. eauto.
  - apply (kr_recv _ _ _ KR).
  - intros u (post & E) Hu. destruct (mq_gs _ _ _ (gs u)) as [(l' & El)|(_ & y & E' & HA)].
    + exfalso. pose proof (recv_pops (X u) x _ (good u) E) as P. rewrite <- Hu, <- X_S, El, E in P.
      apply (f_equal (@length _)) in P. cbn in P. rewrite !app_length in P. lia.
    + rewrite E in E'. injection E' as <- E'. eauto.
Qed.

Lemma mq_done x : forall pre t, (exists post, mq (X t) = pre ++ x :: post) -> eventually t (fun u => handled x (X u)).
Proof.
  induction pre as [|y pre IH]; intros t (post & E).
  - eapply ev_weaken; [|apply (mq_head t x []); exists post; exact E]. intros u _ [_ Y]. exact Y.
  - eapply ev_trans; [apply (mq_head t y (pre ++ [x])); exists post; rewrite E; cbn; now rewrite <- app_assoc|].
    intros u _ [(post' & E') _]. apply IH. exists post'. rewrite E'. now rewrite <- app_assoc.
Qed.

(** What was asked for is eventually there. *)
Lemma reqd_done st t : reqd st (X t) -> eventually t (fun u => released (shf (X u) st) = true).
Proof.
  assert (F : forall u, fsts (X u) st <> None -> eventually u (fun u => released (shf (X u) st) = true)).
  { intros u Hu. eapply ev_weaken; [|apply (fsts_done st u Hu)]. intros v _ ->. reflexivity. }
  intros [H|[H|H]]; [apply ev_now; auto| |auto]. apply in_split in H. destruct H as (pre & post & E).
  eapply ev_trans; [apply (mq_done (BFetch st) pre t); eauto|]. intros u _ [Y|Y]; [apply ev_now; auto|auto].
Qed.
Lemma wreq_done st t : wreq st (X t) -> eventually t (fun u => shw (X u) st = true).
Proof.
  intros [H|H]; [|apply (recording_done st SetWritten t H)]. apply in_split in H. destruct H as (pre & post & E).
  eapply ev_trans; [apply (mq_done (BSetWritten st) pre t); eauto|]. intros u _ Y. apply (recording_done st SetWritten u). right. left. exact Y.
Qed.

(** ** Guest requests complete *)
Definition g_op (n q id : nat) (s : state V) : Prop := exists dv k, ops s n = Some (mk_op (OGuest q id) dv k).

Lemma g_op_step t n q id : g_op n q id (X t) ->
  g_op n q id (X (S t)) \/ exists data, In (TDone n q id true data) (seen c s0 ev t).
Proof.
  intros (dv & k & Hs). pose proof (okX t) as HO. pose proof (k_inv _ _ _ HO) as HI. pose proof (i_N_ops _ _ _ HI _ _ Hs) as Hn.
  pose proof (gs t) as G. pose proof (X_S t) as ES. unfold seen. set (s := X t) in *. set (s' := X (S t)) in *. set (e := ev t) in *.
  assert (Pn : panic s = false) by apply (good t). clearbody s s' e.
  assert (Sm : ops s' n = ops s n -> g_op n q id s') by (intros E; exists dv, k; congruence).
  assert (En : forall v, upd (ops s) (next s) v n = ops s n) by (intros v; unfold upd; destruct (Nat.eqb_spec n (next s)); [lia|auto]).
  destruct G; try (left; apply Sm; reflexivity).
  - left. apply Sm. now rewrite H1.
  - left. apply Sm. now rewrite H1.
  - left. apply Sm. rewrite H1. unfold upd. destruct (Nat.eqb_spec n (rq_serial r)); auto. exfalso.
    destruct HO as [_ [d HSim] _]. destruct (queue_serials c s d q0 r HSim) as [_ Y]; [rewrite H; now left|]. congruence.
  - destruct (Nat.eq_dec n0 n) as [->|Hne].
    + right. rewrite Hs in H. injection H as <- <- <- <-. unfold step in ES |- *. rewrite Pn in *. unfold op_done in *. rewrite Hs in *. cbn [andb] in *.
      destruct (completable c dv k) eqn:Ec; cbn [negb] in *.
      * cbn. eauto.
      * exfalso. cbn [fst] in ES. apply (f_equal ops) in ES. assert (Y : ops s n = None). { rewrite <- ES. destruct k; cbn [complete_medium]; sred; unfold upd; now rewrite Nat.eqb_refl. } congruence.
    + left. apply Sm. destruct k0; cbn [complete_medium]; sred; unfold upd; (destruct (Nat.eqb_spec n n0); [congruence|auto]).
  - left. apply Sm. unfold start_flush. sred. unfold upd. destruct (Nat.eqb_spec n (next s)); [lia|]. destruct (Nat.eqb_spec n n0); [congruence|auto].
  - left. apply Sm. unfold finish. sred. unfold upd. destruct (Nat.eqb_spec n n0); [congruence|auto].
  - left. apply Sm. unfold retry. sred. unfold upd. destruct (Nat.eqb_spec n n0); [congruence|auto].
  - left. unfold g_op. sred. unfold upd. destruct (Nat.eqb_spec n n0); [|eauto]. subst. rewrite Hs in H0. injection H0 as <- <- <-. eauto.
  - left. apply Sm. sred. auto.
  - left. subst s'. apply Sm; reflexivity.
  - left. destruct (ssh_frame c st (u_header u) s1 H2) as (_ & _ & _ & _ & _ & _ & _ & _ & _ & _ & _ & _ & E3 & _).
    apply Sm; rewrite E3; subst s1; reflexivity.
  - left. apply Sm; unfold disconnect; destruct (_ && _); reflexivity.
Qed.

Lemma g_op_done n q id t : g_op n q id (X t) -> exists t' data, t <= t' /\ In (TDone n q id true data) (seen c s0 ev t').
Proof.
  intros H.
  destruct (until (fun u => t <= u /\ g_op n q id (X u)) (fun u => exists t' data, t <= t' /\ In (TDone n q id true data) (seen c s0 ev t')) (fun u => ops (X u) n = None)
    ) with (t := t) as (u & _ & Y); auto.
  - intros u [L Hu]. destruct (g_op_step u n q id Hu) as [Y|(data & Y)]; [left; split; [lia|auto]|right; eauto].
  - apply (kr_base _ _ _ KR n).
  - intros u [_ (dv & k & E)] E'. congruence.
Qed.

Lemma chq_pop s e s' q : GS c s e s' -> (exists l, chq s' q = chq s q ++ l) \/
  (e = EFront q /\ exists r, chq s q = r :: chq s' q /\ g_op (rq_serial r) q (rq_id r) s').
Proof.
  intros G. assert (Sm0 : chq s' = chq s -> exists l, chq s' q = chq s q ++ l) by (intros E; exists []; now rewrite app_nil_r, E).
  destruct G; try (left; apply Sm0; reflexivity); try (left; apply Sm0; assumption).
  - left. rewrite H2. unfold upd. destruct (Nat.eqb_spec q q0); [subst; eauto|exists []; now rewrite app_nil_r].
  - destruct (Nat.eq_dec q q0) as [<-|Hne].
    + right. split; auto. exists r. rewrite H2. unfold upd. rewrite Nat.eqb_refl. split; auto. exists DBase, k. rewrite H1. unfold upd. now rewrite Nat.eqb_refl.
    + left. rewrite H2. unfold upd. destruct (Nat.eqb_spec q q0); [congruence|]. exists []; now rewrite app_nil_r.
  - left. apply Sm0. destruct k; reflexivity.
  - left. apply Sm0. subst s'. reflexivity.
  - left. apply Sm0. destruct (ssh_frame c st (u_header u) s1 H2) as (_ & _ & _ & _ & _ & _ & -> & _). subst s1. reflexivity.
  - left. apply Sm0. unfold disconnect. destruct (_ && _); reflexivity.
Qed.

(** The stripes of a request are available and, for a tracked write, recorded as written. *)
Definition ready (r : req V) (s : state V) : Prop :=
  forall st, In st (req_stripes c r) -> released (shf s st) = true /\ (track c = true -> is_write r = true -> shw s st = true).

Lemma queue_bound s q r : Good s -> In r (chq s q) -> forall st, In st (req_stripes c (rq_req r)) -> st < nst c.
Proof.
  intros [HO [Hp HQ] _ _ _] Hr st Hs. destruct (HQ q r Hr) as [Hf Hne]. unfold req_stripes in Hs.
  destruct (rq_req r); [| |congruence]; cbn [req_extent fst snd req_fits] in *; eapply (fits_stripes c hs WF); [| |exact Hs| | |exact Hs]; lia.
Qed.

Lemma front_pops s q r l : Good s -> chq s q = r :: l -> ready (rq_req r) s -> chq (fst (step c s (EFront q))) q = l.
Proof.
  intros HG E HR. assert (Hr : In r (chq s q)) by (rewrite E; now left). pose proof (queue_bound s q r HG Hr) as Hb.
  destruct HG as [HO [Hp _] _ _ _]. unfold step. rewrite Hp. cbn [fst]. unfold process_front. rewrite E. cbv zeta.
  assert (F : forall sts, (forall st, In st sts -> st < nst c /\ released (shf s st) = true) -> fetch_status c s sts = SComplete).
  { induction sts as [|x sts IH]; intros Y; cbn [fetch_status]; auto. destruct (Y x (or_introl eq_refl)) as [A B]. destruct (Nat.ltb_spec x (nst c)); [|lia].
    destruct (shf s x); try discriminate; apply IH; intros; apply Y; now right. }
  assert (W : forall sts, (forall st, In st sts -> st < nst c /\ shw s st = true) -> stripes_written c s sts = Some true).
  { induction sts as [|x sts IH]; intros Y; cbn [stripes_written]; auto. destruct (Y x (or_introl eq_refl)) as [A B]. destruct (Nat.ltb_spec x (nst c)); [|lia].
    rewrite B. apply IH; intros; apply Y; now right. }
  rewrite F by (intros st Hs; split; [auto|apply HR; auto]). destruct (track c && is_write (rq_req r)) eqn:Et.
  - apply andb_true_iff in Et. destruct Et as [E1 E2]. rewrite W by (intros st Hs; split; [auto|apply HR; auto]). unfold issue. sred. unfold upd. now rewrite Nat.eqb_refl.
  - unfold issue. sred. unfold upd. now rewrite Nat.eqb_refl.
Qed.

Lemma ready_mono r t u : t <= u -> ready r (X t) -> ready r (X u).
Proof.
  intros L H st Hs. destruct (H st Hs) as [A B]. pose proof (mono t u L) as M. split; [apply (mo_rel _ _ M); auto|]. intros Ht Hw. apply (mo_shw _ _ M); auto.
Qed.

(** Finitely many stable events all happen. *)
Lemma ev_all {A} (l : list A) (P : A -> nat -> Prop) t : (forall x u v, u <= v -> P x u -> P x v) -> (forall x, In x l -> eventually t (P x)) ->
  eventually t (fun u => forall x, In x l -> P x u).
Proof.
  intros Hm. induction l as [|x l IH]; intros H; [apply ev_now; intros ? []|].
  destruct (H x (or_introl eq_refl)) as (u & Lu & Hu). destruct IH as (v & Lv & Hv); [intros; apply H; now right|].
  exists (max u v). split; [lia|]. intros y [<-|Hy]; [apply (Hm x u); auto; lia|apply (Hm y v); auto; lia].
Qed.

Lemma ready_soon t q r : In r (chq (X t) q) -> eventually t (fun u => ready (rq_req r) (X u)).
Proof.
  intros Hr. pose proof (l_chq _ _ _ (d_li _ (good t)) q r Hr) as HL. unfold ready.
  apply (ev_all (req_stripes c (rq_req r)) (fun st u => released (shf (X u) st) = true /\ (track c = true -> is_write (rq_req r) = true -> shw (X u) st = true))).
  - intros st u v L [A B]. pose proof (mono u v L) as M. split; [apply (mo_rel _ _ M); auto|]. intros. apply (mo_shw _ _ M); auto.
  - intros st Hs. destruct (HL st Hs) as [A B]. destruct (reqd_done st t A) as (u & Lu & Hu).
    destruct (track c && is_write (rq_req r)) eqn:Et.
    + apply andb_true_iff in Et. destruct Et as [E1 E2]. destruct (wreq_done st t (B E1 E2)) as (v & Lv & Hv). exists (max u v). split; [lia|]. split.
      * apply (mo_rel _ _ (mono u (max u v) ltac:(lia))). auto.
      * intros _ _. apply (mo_shw _ _ (mono v (max u v) ltac:(lia))). auto.
    + exists u. split; [auto|]. split; auto. intros E1 E2. rewrite E1, E2 in Et. discriminate.
Qed.

Lemma chq_head t q r l : (exists post, chq (X t) q = r :: l ++ post) ->
  eventually t (fun u => (exists post, chq (X u) q = l ++ post) /\ g_op (rq_serial r) q (rq_id r) (X u)).
Proof.
  set (Q := fun u => (exists post, chq (X u) q = l ++ post) /\ g_op (rq_serial r) q (rq_id r) (X u)).
  set (B := fun u => exists post, chq (X u) q = r :: l ++ post). intros HB.
  assert (BQ : forall u, B u -> B (S u) \/ Q (S u)).
  { intros u (post & E). destruct (chq_pop _ _ _ q (gs u)) as [(l' & El)|(_ & r' & E' & HA)].
    - left. exists (post ++ l'). rewrite El, E. cbn. now rewrite <- app_assoc.
    - right. rewrite E in E'. injection E' as <- E'. split; eauto. }
  assert (HR : eventually t (fun u => ready (rq_req r) (X u))).
  { apply (ready_soon t q). destruct HB as (post & ->). now left. }
  eapply ev_trans; [apply (meanwhile B Q _ t BQ HB HR)|]. intros u _ [Y|Y]; [apply ev_now; exact Y|].
  apply (until (fun u => B u /\ ready (rq_req r) (X u)) Q (fun u => ev u = EFront q)); [| |  |exact Y].
  - intros v [HBv HRv]. destruct (BQ v HBv) as [Z|Z]; auto. left. split; auto. apply (ready_mono _ v); auto.
  - apply (kr_poll _ _ _ KR).
  - intros v [(post & E) HRv] Hv. destruct (chq_pop _ _ _ q (gs v)) as [(l' & El)|(_ & r' & E' & HA)].
    + exfalso. pose proof (front_pops (X v) q r _ (good v) E HRv) as P. rewrite <- Hv, <- X_S, El, E in P.
      apply (f_equal (@length _)) in P. cbn in P. rewrite !app_length in P. lia.
    + rewrite E in E'. injection E' as <- E'. split; eauto.
Qed.

Lemma chq_done q r : forall pre t, (exists post, chq (X t) q = pre ++ r :: post) -> eventually t (fun u => g_op (rq_serial r) q (rq_id r) (X u)).
Proof.
  induction pre as [|x pre IH]; intros t (post & E).
  - eapply ev_weaken; [|apply (chq_head t q r []); exists post; exact E]. intros u _ [_ Y]. exact Y.
  - eapply ev_trans; [apply (chq_head t q x (pre ++ [r])); exists post; rewrite E; cbn; now rewrite <- app_assoc|].
    intros u _ [(post' & E') _]. apply IH. exists post'. rewrite E'. now rewrite <- app_assoc.
Qed.

Ltac nx := unfold enqueue, fail_req, issue; sred; auto.
Lemma add_next_lt q id r (s : state V) : next s < next (add_req c q id r s).
Proof.
  assert (Hq : forall off data, next s < next (queue_write c (next s) q id off data (set_next (S (next s)) s))).
  { intros off data. unfold queue_write.
    destruct (ssf_spec c q (stripes_of c off (length data)) (set_next (S (next s)) s)) as (cr & l & E & _).
    destruct (start_stripe_fetches _ _ _ _) as [s1 r1]. cbn [fst] in E. subst s1.
    destruct r1; nx. destruct (track c); nx.
    destruct (ssw_spec c (stripes_of c off (length data)) (set_chreq cr (set_mq (mq (set_next (S (next s)) s) ++ l) (set_next (S (next s)) s)))) as (l2 & E2 & _).
    destruct (start_stripe_set_written _ _ _) as [s2 r2]. cbn [fst] in E2. subst s2. destruct r2; nx. }
  unfold add_req. destruct r as [off len|off data|].
  - unfold add_read. destruct (fetch_status _ _ _); nx.
    destruct (_ && _); [nx|].
    destruct (ssf_spec c q (stripes_of c off len) (set_next (S (next s)) s)) as (cr & l & E & _).
    destruct (start_stripe_fetches _ _ _ _) as [s1 r1]. cbn [fst] in E. subst s1. destruct r1; nx.
  - unfold add_write. destruct (fetch_status _ _ _); nx.
    destruct (track c); [|nx]. destruct (stripes_written _ _ _) as [[|]|]; nx.
  - nx.
Qed.

Lemma added t q id r : ev t = EAdd q id r ->
  g_op (next (X t)) q id (X (S t)) \/ exists l, chq (X (S t)) q = l ++ [mk_rwreq (next (X t)) id r].
Proof.
  intros E. pose proof (gs t) as G. pose proof (add_next_lt q id r (X t)) as N. destruct (good t) as [_ [Hp _] _ _ _].
  assert (N' : next (X t) < next (X (S t))) by (rewrite X_S, E; unfold step; rewrite Hp; exact N). clear N.
  rewrite E in G. set (s := X t) in *. set (s' := X (S t)) in *. clearbody s s'. remember (EAdd q id r) as e eqn:Ee.
  destruct G; try discriminate; try (exfalso; lia).
  - injection Ee as -> -> ->. left. exists dv, k. rewrite H1. unfold upd. now rewrite Nat.eqb_refl.
  - injection Ee as -> -> ->. right. exists (chq s q). rewrite H2. unfold upd. now rewrite Nat.eqb_refl.
  - destruct H; congruence.
Qed.

(** Every request completes, successfully. *)
Theorem requests_complete t q id r : ev t = EAdd q id r ->
  exists t' data, t < t' /\ In (TDone (next (X t)) q id true data) (seen c s0 ev t').
Proof.
  intros E. assert (H : eventually (S t) (fun u => g_op (next (X t)) q id (X u))).
  { destruct (added t q id r E) as [Y|(l & Y)]; [apply ev_now; auto|]. apply (chq_done q (mk_rwreq (next (X t)) id r) l (S t)). exists []. exact Y. }
  destruct H as (u & Lu & Hu). destruct (g_op_done _ _ _ u Hu) as (t' & data & L & HD). exists t', data. split; [lia|auto].
Qed.

(** ** Autofetch *)
Lemma fetched_stable s e s' st : Ok s -> GS c s e s' -> fsts s st = Some FFetched -> fsts s' st = Some FFetched.
Proof.
  intros HO G H. pose proof (k_inv _ _ _ HO) as HI. assert (Sm0 : fsts s' = fsts s -> fsts s' st = Some FFetched) by congruence.
  assert (U : forall x v, fsts s' = upd (fsts s) x v -> (x = st -> v = Some FFetched) -> fsts s' st = Some FFetched).
  { intros x v -> Hv. unfold upd. destruct (Nat.eqb_spec st x); [subst; auto|auto]. }
  destruct G; try (apply Sm0; reflexivity); try (apply Sm0; apply H0); try (apply Sm0; apply H1).
  - apply Sm0. destruct k; reflexivity.
  - eapply U; [reflexivity|]. intros ->. destruct (i_F_op _ _ _ HI _ _ _ _ H0) as (_ & _ & _ & _ & Y). congruence.
  - eapply U; [reflexivity|]. auto.
  - eapply U; [reflexivity|]. intros ->. destruct (i_F_buf _ _ _ HI _ _ H1) as [[Y|Y] _]; congruence.
  - eapply U; [reflexivity|]. intros ->. congruence.
  - eapply U; [reflexivity|]. intros ->. congruence.
  - eapply U; [reflexivity|]. intros ->. pose proof (fq_queued _ _ _ HO H0). congruence.
  - eapply U; [reflexivity|]. intros ->. pose proof (fq_queued _ _ _ HO H0). congruence.
  - eapply U; [reflexivity|]. intros ->. destruct (i_F_buf _ _ _ HI _ _ H1) as [[Y|Y] _]; congruence.
  - subst s'. auto.
  - apply Sm0. destruct (ssh_frame c st0 (u_header u) s1 H3) as (-> & _). subst s1. reflexivity.
  - apply Sm0. unfold disconnect. destruct (_ && _); reflexivity.
Qed.
Lemma fetched_mono t u st : t <= u -> fsts (X t) st = Some FFetched -> fsts (X u) st = Some FFetched.
Proof. intros L H. induction L; auto. apply (fetched_stable _ _ _ _ (okX m) (gs m)); auto. Qed.

Definition ffetched (s : state V) (st : nat) : bool := match fsts s st with Some FFetched => true | _ => false end.

Lemma fauto_pop_gs s e s' : GS c s e s' -> fauto s' = fauto s \/ exists st, fauto s = st :: fauto s'.
Proof.
  intros G. destruct G; try (left; reflexivity); try (left; apply H); try (left; apply H0); try (right; eexists; eassumption).
  - left. destruct k; reflexivity.
  - subst s'. auto.
  - left. destruct (ssh_frame c st (u_header u) s1 H2) as (_ & _ & _ & _ & _ & _ & _ & -> & _). subst s1. reflexivity.
  - left. unfold disconnect. destruct (_ && _); reflexivity.
Qed.

Lemma auto_pops s st l : Good s -> autofetch c = true -> fq s = [] -> fauto s = st :: l -> fauto (fst (step c s EWAutofetch)) = l.
Proof.
  intros [HO [Hp _] Hw _ _] Ha Eq E. unfold step, worker. rewrite Hp, Hw. cbn [fst]. unfold update_autofetch. rewrite Ha, Eq, E.
  unfold handle_fetch_request. destruct (_ <? _); [|reflexivity]. destruct (released _); [reflexivity|]. sred. destruct (fsts s st); reflexivity.
Qed.

Lemma fauto_head (Ha : autofetch c = true) st l : forall k t, nst c - count (ffetched (X t)) (nst c) = k -> fauto (X t) = st :: l -> eventually t (fun u => fauto (X u) = l).
Proof.
  intros k. induction k as [k IH] using lt_wf_ind. intros t Ek E.
  apply (ev_trans t (fun u => fauto (X u) = l \/ (fauto (X u) = st :: l /\ nst c - count (ffetched (X u)) (nst c) < k))).
  2:{ intros u _ [Y|[Y Z]]; [apply ev_now; auto|]. apply (IH _ Z u eq_refl Y). }
  set (B := fun u => t <= u /\ fauto (X u) = st :: l). set (Q := fun u => fauto (X u) = l).
  assert (BQ : forall u, B u -> B (S u) \/ Q (S u)).
  { intros u [L Hu]. destruct (fauto_pop_gs _ _ _ (gs u)) as [Y|(x & Y)]; [left; split; [lia|congruence]|right]. unfold Q. rewrite Hu in Y. now injection Y. }
  assert (HB : B t) by (split; auto).
  destruct (kr_auto _ _ _ KR t) as (u & Lu & Hu).
  assert (Step : eventually t (fun v => Q v \/ (B v /\ v = u))) by (apply (meanwhile B Q (fun v => v = u) t BQ HB); exists u; auto).
  destruct Step as (v & Lv & [Y|[[_ Y] ->]]); [exists v; auto|].
  destruct (fq (X u)) as [|x q] eqn:Eq.
  - exists (S u). split; [lia|]. left. rewrite X_S, Hu. apply (auto_pops _ st); auto. apply good.
  - pose proof (fq_queued _ _ _ (okX u) Eq) as Hq. destruct (i_F_range _ _ _ (invX u) _ _ Hq) as [Hx _].
    destruct (meanwhile B Q (fun w => fsts (X w) x = Some FFetched) u BQ (conj Lu Y)) as (w & Lw & HD).
    { apply (fetch_done x _ u eq_refl). congruence. }
    exists w. split; [lia|]. destruct HD as [HD|[[_ HB'] HD]]; [left; auto|right]. split; auto.
    assert (C1 : count (ffetched (X t)) (nst c) <= count (ffetched (X u)) (nst c)).
    { apply count_le. unfold ffetched. intros y _ Hy. destruct (fsts (X t) y) as [[]|] eqn:Ey; try discriminate. now rewrite (fetched_mono t u y Lu Ey). }
    assert (C2 : count (ffetched (X u)) (nst c) < count (ffetched (X w)) (nst c)).
    { assert (Hm : forall y, y < nst c -> ffetched (X u) y = true -> ffetched (X w) y = true).
      { unfold ffetched. intros y _ Hy. destruct (fsts (X u) y) as [[]|] eqn:Ey; try discriminate. now rewrite (fetched_mono u w y Lw Ey). }
      pose proof (count_le _ _ _ Hm) as L. destruct (Nat.eq_dec (count (ffetched (X u)) (nst c)) (count (ffetched (X w)) (nst c))) as [Ec|]; [|lia].
      exfalso. pose proof (count_eq_all _ _ _ Hm Ec x Hx) as Z. unfold ffetched in Z. rewrite Hq, HD in Z. specialize (Z eq_refl). discriminate. }
    pose proof (count_bound (ffetched (X w)) (nst c)). lia.
Qed.

Lemma fauto_empty (Ha : autofetch c = true) t : eventually t (fun u => fauto (X u) = []).
Proof.
  remember (fauto (X t)) as l eqn:E. revert t E. induction l as [|st l IH]; intros t E; [apply ev_now; auto|].
  eapply ev_trans; [apply (fauto_head Ha st l _ t eq_refl); auto|]. intros u _ Hu. apply IH. auto.
Qed.

Lemma released_fetched t st : st < nst c -> hs st = true -> released (shf (X t) st) = true -> shf (X t) st = Fetched.
Proof.
  intros Hst Hs Hr. pose proof (proj1 (i_M_shf _ _ _ (invX t) st) Hst) as Y. destruct (shf (X t) st); auto; try discriminate. congruence.
Qed.

(** Autofetch fetches every stripe that has source data. *)
Theorem all_fetched_soon (Ha : autofetch c = true) t : eventually t (fun u => fauto (X u) = [] /\ forall st, st < nst c -> hs st = true -> shf (X u) st = Fetched).
Proof.
  eapply ev_trans; [apply (fauto_empty Ha t)|]. intros u _ Hu.
  destruct (ev_all (seq 0 (nst c)) (fun st v => hs st = true -> shf (X v) st = Fetched) u) as (v & Lv & Hv).
  - intros st v w L H Hs. apply (mo_fet _ _ (mono v w L)). auto.
  - intros st Hst. apply in_seq in Hst. destruct (hs st) eqn:Es; [|apply ev_now; discriminate].
    destruct (l_auto _ _ _ (d_li _ (good u)) Ha st ltac:(lia) Es) as [Y|Y]; [rewrite Hu in Y; destruct Y|].
    eapply ev_weaken; [|apply (reqd_done st u Y)]. intros v _ Hr _. apply released_fetched; auto. lia.
  - exists v. split; auto. split.
    + clear Hv. induction Lv; auto. destruct (fauto_pop_gs _ _ _ (gs m)) as [->|(x & Y)]; auto. congruence.
    + intros st Hst. apply Hv. apply in_seq. lia.
Qed.

(** ** Disconnection *)
Definition settled (s : state V) : Prop := fauto s = [] /\ forall st, st < nst c -> hs st = true -> shf s st = Fetched.

Lemma settled_mono t u : t <= u -> settled (X t) -> settled (X u).
Proof.
  intros L [A B]. split.
  - clear B. induction L; auto. destruct (fauto_pop_gs _ _ _ (gs m)) as [->|(x & Y)]; auto. congruence.
  - intros st H1 H2. apply (mo_fet _ _ (mono t u L)). auto.
Qed.

Lemma settled_idle s st : Ok s -> settled s -> fsts s st = None \/ fsts s st = Some FFetched.
Proof.
  intros HO [_ HS]. pose proof (k_inv _ _ _ HO) as HI. destruct (fsts s st) as [f|] eqn:E; auto. right. f_equal.
  destruct (i_F_range _ _ _ HI _ _ E) as [A B]. pose proof (i_F_unrel _ _ _ HI _ _ E) as U. rewrite (HS st A B) in U.
  destruct f; auto; exfalso; assert (Y : released Fetched = false) by (apply U; discriminate); discriminate.
Qed.

Lemma ffin_gs s e s' : Ok s -> settled s -> GS c s e s' -> ffin s = [] -> ffin s' = [].
Proof.
  intros HO HS G H. pose proof (settled_idle s) as SI. pose proof (k_inv _ _ _ HO) as HI.
  destruct G; try (exact H); try (rewrite (g_ffin _ _ H0); exact H); try (rewrite (g_ffin _ _ H1); exact H).
  - destruct k; exact H.
  - exfalso. destruct (i_F_buf _ _ _ HI _ _ H1) as [Y _]. destruct (SI st HO HS), Y; congruence.
  - reflexivity.
  - subst s'. exact H.
  - destruct (ssh_frame c st (u_header u) s1 H3) as (_ & _ & -> & _). subst s1. exact H.
  - unfold disconnect. destruct (_ && _); exact H.
Qed.

Lemma ffin_empty t : settled (X t) -> eventually t (fun u => ffin (X u) = []).
Proof.
  intros _. destruct (kr_fin _ _ _ KR t) as (u & L & Hu). exists (S u). split; [lia|]. destruct (good u) as [_ [Hp _] Hw _ _].
  rewrite X_S, Hu. unfold step, worker. rewrite Hp, Hw. reflexivity.
Qed.

Lemma disc_gs s e s' : GS c s e s' -> fdisc s = true -> slive s = false -> fdisc s' = true /\ slive s' = false.
Proof.
  intros G H1 H2. destruct G; try (split; assumption); try (rewrite (g_fdisc _ _ H), (g_slive _ _ H); split; assumption); try (rewrite (g_fdisc _ _ H0), (g_slive _ _ H0); split; assumption).
  - destruct k; split; assumption.
  - subst s'. split; assumption.
  - unfold set_stripe_header. destruct (_ <? _); [|subst s1; split; assumption]. cbv zeta.
    destruct (has_flag FLAG_FETCHED _), (has_flag FLAG_WRITTEN _); try destruct (released _); subst s1; split; assumption.
  - unfold disconnect. destruct (_ && _); split; auto.
Qed.

Lemma settled_disconnects s : Good s -> settled s -> ffin s = [] -> fdisc s = false -> 
  fdisc (fst (step c s EWDisconnect)) = true /\ slive (fst (step c s EWDisconnect)) = false.
Proof.
  intros [HO [Hp _] Hw _ _] HS Hf Hd. pose proof (k_inv _ _ _ HO) as HI. unfold step, worker. rewrite Hp, Hw. cbn [fst]. unfold disconnect.
  assert (E1 : fetcher_busy s = false).
  { unfold fetcher_busy. destruct HS as [Hfa HS]. assert (HS' : settled s) by (split; auto). rewrite Hf, Hfa.
    assert (Q : fq s = []). { destruct (fq s) as [|x q] eqn:Eq; auto. pose proof (fq_queued _ _ _ HO Eq). destruct (settled_idle s x HO HS'); congruence. }
    rewrite Q. cbn [is_nil negb orb].
    assert (S1 : source_busy s = false).
    { unfold source_busy. apply not_true_iff_false. intros Y. apply existsb_exists in Y. destruct Y as (n & _ & Y). destruct (sops s n) as [[st b]|] eqn:Es; [|discriminate].
      destruct (i_F_sop _ _ _ HI _ _ _ Es) as [Z _]. destruct (settled_idle s st HO HS'); congruence. }
    assert (S2 : target_busy s = false).
    { unfold target_busy. apply not_true_iff_false. intros Y. apply existsb_exists in Y. destruct Y as (n & _ & Y). destruct (ops s n) as [[[|st] dv k]|] eqn:Es; try discriminate.
      destruct (i_F_op _ _ _ HI _ _ _ _ Es) as [_ Z]. destruct (settled_idle s st HO HS') as [W|W]; rewrite W in Z; destruct k; try (destruct Z as (_ & _ & _ & Z)); try discriminate; contradiction. }
    rewrite S1, S2. reflexivity. }
  assert (E2 : cntS s = cntF s).
  { destruct (j_cn _ _ _ (k_inv2 _ _ _ HO)) as [A B _]. rewrite A, B. apply count_ext. intros st Hst. destruct HS as [_ HS].
    pose proof (proj1 (i_M_shf _ _ _ HI st) Hst) as Y. destruct (hs st) eqn:Es; [rewrite (HS st Hst Es); reflexivity|]. destruct (shf s st); try congruence. reflexivity. }
  rewrite E1, Hd, E2, Nat.eqb_refl. split; reflexivity.
Qed.

(** The device disconnects from the source, for good. *)
Theorem disconnected_soon (Ha : autofetch c = true) : fdisc s0 = false ->
  exists t, forall u, t <= u -> fdisc (X u) = true /\ slive (X u) = false.
Proof.
  intros H0. destruct (all_fetched_soon Ha 0) as (t1 & _ & HS). change (settled (X t1)) in HS.
  destruct (ffin_empty t1 HS) as (t2 & L2 & Hf). destruct (kr_disc _ _ _ KR t2) as (t3 & L3 & Hd).
  assert (Hf3 : ffin (X t3) = []).
  { clear Hd. induction L3; auto. apply (ffin_gs _ _ _ (okX m)) with (2 := gs m); auto. apply (settled_mono t1); auto. lia. }
  assert (D : forall u, (fdisc (X u) = false) \/ (fdisc (X u) = true /\ slive (X u) = false)).
  { induction u as [|u IH]; [left; exact H0|]. destruct IH as [IH|[I1 I2]]; [|right; apply (disc_gs _ _ _ (gs u)); auto].
    assert (Y : fdisc (X (S u)) = fdisc (X u) \/ (fdisc (X (S u)) = true /\ slive (X (S u)) = false)).
    { pose proof (gs u) as G. set (s := X u) in *. set (s' := X (S u)) in *. clearbody s s'.
      destruct G; try (left; reflexivity); try (left; apply H); try (left; apply H1).
      - left. destruct k; reflexivity.
      - left. subst s'. reflexivity.
      - left. destruct (ssh_frame c st (u_header u0) s1 H3) as (_ & _ & _ & _ & _ & _ & _ & _ & _ & _ & _ & _ & _ & _ & _ & _ & _ & ->). subst s1. reflexivity.
      - unfold disconnect. destruct (_ && _); auto. }
    destruct Y as [Y|Y]; [left; congruence|auto]. }
  exists (S t3). intros u Lu.
  assert (B : fdisc (X (S t3)) = true /\ slive (X (S t3)) = false).
  { destruct (D t3) as [Y|[Y1 Y2]]; [|apply (disc_gs _ _ _ (gs t3)); auto]. rewrite X_S, Hd. apply settled_disconnects; auto; [apply good|]. apply (settled_mono t1); auto. lia. }
  clear Hf3 D Hf HS. induction Lu; auto. destruct IHLu. apply (disc_gs _ _ _ (gs m)); auto.
Qed.

End Progress.
