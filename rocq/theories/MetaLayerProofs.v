(** Proofs about the lazy device over an unknown metadata device (MetaLayerModel.v): every
    run of it over a metadata device that behaves as a disk is a run of LayerModel.v. *)
From Coq Require Import List Arith NArith ZArith Bool Lia ZifyBool ZifyNat ZifyN.
Import ListNotations.
From Verif Require Import Base BaseFacts DiskSpec TraceSpec TraceFacts LazyState MetadataModel LazyModel LazySpec LazyInv LayerModel MetaLayerModel MetaLayerPatch.
From Verif Require Import LayerSpec LayerIds.
From Verif Require LazyRun LazyProofs LayerPatch LayerProofs RestartFacts MetadataProofs.
Ltac Zify.zify_post_hook ::= Z.div_mod_to_equations.

Section Layer.
Context {V : Type}.
Variable c : cfg V.
Variable base : nat -> V.
Variable h : nat -> N.
Hypothesis WC : well_configured c h.
Hypothesis Hps : hps c = STRIPE_HEADERS_PER_SECTOR.

(** The metadata device: its size, and what it held at the start. *)
Variable msize : nat.
Variable mbase : nat -> list byte.
Hypothesis Room : forall st, st < nst c -> 1 + group_of c st < msize.

Notation event_fits := (LayerProofs.event_fits c).

(** ** The bytes of a header sector *)

Lemma header_bytes_agree f f' st st' : group_of c st = group_of c st' -> st < nst c -> st' < nst c ->
  (forall i, i < nst c -> group_of c i = group_of c st -> f i = f' i) ->
  header_bytes c f st = header_bytes c f' st'.
Proof.
  clear base h WC Room. intros G H H' E. unfold group_of in *. rewrite Hps in *. unfold header_bytes, STRIPE_HEADERS_PER_SECTOR in *.
  rewrite !MetadataProofs.flusher_sector_ok by (rewrite map_length, seq_length; lia). f_equal. rewrite <- G.
  apply (nth_ext _ _ 0%N 0%N).
  - unfold MetadataProofs.chunk. rewrite !firstn_length, !skipn_length, !map_length. reflexivity.
  - intros j Hj. unfold MetadataProofs.chunk in Hj. rewrite firstn_length, skipn_length, map_length, seq_length in Hj.
    rewrite !MetadataProofs.nth_chunk by lia. set (i := st / 508 * 508 + j). assert (Hi : i < nst c) by (unfold i; lia).
    rewrite !(nth_indep _ 0%N (f 0)) by (rewrite map_length, seq_length; exact Hi). rewrite map_nth.
    rewrite (nth_indep _ (f 0) (f' 0)) by (rewrite map_length, seq_length; exact Hi). rewrite map_nth, seq_nth by exact Hi.
    apply E; [exact Hi|]. unfold i. lia.
Qed.

(** ** The metadata device and the model's own medium *)

Definition mlinked (B : nat -> nat -> N) (a b : option mop) (y : option (dop (list byte))) : Prop :=
  match a, b with
  | None, None => y = None
  | Some (MWrite st g buf _), Some (MWrite st' g' buf' ap) => st' = st /\ g' = g /\ buf' = buf /\
    exists apf, y = Some (mk_dop 0 st (DWrite (1 + g) [header_bytes c (B buf) st] apf)) /\ apf 0 = ap
  | Some (MFlush st _), Some (MFlush st' sn) => st' = st /\
    exists sn', y = Some (mk_dop 0 st (DFlush sn')) /\ forall n, sn n = sn' n
  | _, _ => False
  end.

(** What is on the medium: the bytes written for these headers, or what was there. *)
Definition same_entry (st : nat) (e : nat * (nat -> N)) (e' : nat * list byte) : Prop :=
  fst e = fst e' /\ (snd e' = header_bytes c (snd e) st \/ (snd e = h /\ snd e' = mbase (1 + group_of c st))).

(** [pe]: a call the flusher has made and the device has not yet been given. *)
Definition pending : Type := option (nat * nat * req (list byte)).
Definition announced (pe : pending) : list (titem (list byte)) :=
  match pe with Some (n, st, r) => [TIssue n 0 st r] | None => [] end.

Record Sim (pe : pending) (s so : state V) (d : disk (list byte)) : Prop := {
  sm_state : exists M H D, s = mpatch M H D (mbufs so) so;
  sm_op : forall n, (forall st r, pe <> Some (n, st, r)) -> mlinked (mbufs so) (mops s n) (mops so n) (d_ops d n);
  sm_pe : forall n st r, pe = Some (n, st, r) -> d_ops d n = None /\
            mlinked (mbufs so) (mops s n) (mops so n) (Some (mk_dop 0 st (start_kind d r)));
  sm_hist : forall st, st < nst c -> Forall2 (same_entry st) (mh so (group_of c st)) (d_hist d (1 + group_of c st));
  sm_other : forall x, (forall st, st < nst c -> x <> 1 + group_of c st) -> d_hist d x = [(0, mbase x)];
  sm_done : forall n, mdone so n = d_done d n
}.

(** What is known of the states of LayerModel.v. *)
Record good (so : state V) : Prop := {
  g_panic : panic so = false;
  g_new : forall n o, mops so n = Some o -> n < next so;
  g_write : forall n st g b ap, mops so n = Some (MWrite st g b ap) -> g = group_of c st /\ st < nst c /\ muse so b = true;
  g_free : forall b, In b (mavail so) -> muse so b = false
}.

Definition Rel (so : state V) (dB : disk V) : Prop := exists es O B D F, LayerProofs.Related c base h None so es dB O B D F.

Lemma rel_good so dB : Rel so dB -> good so.
Proof.
  intros (es & O & B & D & F & R). destruct (LayerProofs.r_ok c base h WC _ _ _ _ _ _ _ _ R) as [[HI _ _] Hp]. constructor.
  - exact Hp.
  - intros n o E. exact (i_N_mops _ _ _ HI n o E).
  - intros n st g b ap E. destruct (i_M_write _ _ _ HI n st g b ap E) as (-> & (u & Eu & Su & <-) & _). split; [reflexivity|].
    split; [exact (proj1 (i_M_upd _ _ _ HI st u Eu))|exact (proj1 (i_M_ubuf _ _ _ HI st u Eu Su))].
  - intros b Hb. exact (proj1 (proj2 (i_M_pool _ _ _ HI) b Hb)).
Qed.

Lemma rel_step so dB e so' g b des dB' : Rel so dB -> event_fits e -> ostep c so e = Some (so', g, b) ->
  drun (target c) dB des = Some (dB', b) -> Rel so' dB'.
Proof.
  intros (es & O & B & D & F & R) Fe St Hr.
  destruct (LayerProofs.sim_event c base h WC _ _ _ _ _ _ _ _ _ _ _ _ _ R Fe St Hr) as (es' & O' & B' & D' & F' & R' & _).
  exists (es ++ es'), O', B', D', F'. exact R'.
Qed.

Lemma linked_none B a b : mlinked B a b None -> a = None /\ b = None.
Proof.
  destruct a as [[st g bf ap|st sn]|], b as [[st' g' bf' ap'|st' sn']|]; cbn; try contradiction; auto.
  - intros (_ & _ & _ & apf & X & _). discriminate X.
  - intros (_ & sn2 & X & _). discriminate X.
Qed.

(** ** Steps of the metadata device that nobody sees *)

Lemma calls_same (s s' : state V) : ops s' = ops s -> calls s s' = [].
Proof.
  intros E. unfold calls. rewrite E. induction (seq 0 (next s')) as [|n l IH]; [reflexivity|]. cbn [flat_map]. rewrite IH.
  destruct (ops s n); reflexivity.
Qed.

Lemma sim_silent pe s so d e d1 : Sim pe s so d -> good so -> dstep msize d e = Some (d1, []) ->
  exists n so1, ostep c so (OOwn (EMApply n)) = Some (so1, [], []) /\ Sim pe s so1 d1.
Proof.
  intros [(M & H & D & Es) So Sp Sh Sx Sd] [Gp Gn Gw Gf] St. unfold dstep in St. destruct e as [n q id r|n i|n i|n ok|p].
  - destruct (d_used d n); discriminate St.
  - destruct (d_ops d n) as [[ch id k]|] eqn:Ed; [|discriminate St].
    assert (Np : forall st r, pe <> Some (n, st, r)) by (intros st r Ep; destruct (Sp _ _ _ Ep); congruence).
    pose proof (So n Np) as L. rewrite Ed in L. destruct k as [off len got|off data ap|sn]; try discriminate St.
    destruct (mops s n) as [[st g b ap0|st sn]|] eqn:Ms, (mops so n) as [[st' g' b' ap1|st' sn']|] eqn:Mo; cbn in L; try contradiction; try discriminate.
    2:{ destruct L as (_ & sn2 & X & _). discriminate X. }
    destruct L as (-> & -> & -> & apf & X & Ea). injection X as -> -> -> -> ->.
    destruct i as [|i]; [|destruct i; discriminate St]. cbn [nth_error] in St.
    replace (S g + 0) with (1 + g) in St by lia. destruct ((1 + g <? msize) && negb (apf 0)) eqn:Ec; [|discriminate St]. injection St as <-.
    apply andb_true_iff in Ec as (_ & Ec). apply negb_true_iff in Ec. rewrite Ec in Ea. subst ap1.
    destruct (Gw _ _ _ _ _ Mo) as (Eg & Hst & _).
    exists n, (meta_apply n so). split.
    + cbn [ostep own]. unfold step. rewrite Gp. rewrite calls_same; [reflexivity|]. unfold meta_apply. rewrite Mo. reflexivity.
    + unfold meta_apply. rewrite Mo. constructor; cbn [d_ops d_hist d_done].
      * exists M, H, D. rewrite Es. reflexivity.
      * intros m Hm. change (mops (set_mops ?x _)) with x. change (mbufs (set_mops _ _)) with (mbufs so). unfold upd at 1 2.
        destruct (Nat.eqb_spec m n) as [->|]; [|exact (So m Hm)]. rewrite Ms. cbn. repeat split. eexists. split; [reflexivity|]. reflexivity.
      * intros m st0 r Ep. destruct (Sp _ _ _ Ep) as (X & Y). assert (m <> n) by congruence. rewrite !upd_neq by auto.
        split; [exact X|]. change (mops (set_mops ?x _)) with x. change (mbufs (set_mops _ _)) with (mbufs so). rewrite upd_neq by auto. exact Y.
      * intros st0 Hst0. change (mh (set_mops _ (set_mh ?x _))) with x. specialize (Sh st0 Hst0). unfold upd.
        replace (S g) with (1 + g) by reflexivity. replace (1 + g + 0) with (1 + g) by lia.
        destruct (Nat.eqb_spec (group_of c st0) g) as [Eq|Ne].
        -- replace (1 + group_of c st0 =? 1 + g) with true by (symmetry; apply Nat.eqb_eq; lia). rewrite Eq in Sh. constructor; [|exact Sh].
           split; [reflexivity|]. left. cbn [snd]. apply header_bytes_agree; auto. congruence.
        -- replace (1 + group_of c st0 =? 1 + g) with false by (symmetry; apply Nat.eqb_neq; lia). exact Sh.
      * intros x Hx. rewrite upd_neq; [exact (Sx x Hx)|]. intros Y. apply (Hx st Hst). rewrite Y, Eg. lia.
      * exact Sd.
  - destruct (d_ops d n) as [[ch id k]|] eqn:Ed; [|discriminate St].
    assert (Np : forall st r, pe <> Some (n, st, r)) by (intros st r Ep; destruct (Sp _ _ _ Ep); congruence).
    pose proof (So n Np) as L. rewrite Ed in L. exfalso. destruct k as [off len got|off data ap|sn]; try discriminate St.
    destruct (mops s n) as [[st g b ap0|st sn]|], (mops so n) as [[st' g' b' ap1|st' sn']|]; cbn in L; try contradiction; try discriminate.
    + destruct L as (_ & _ & _ & apf & X & _). discriminate X.
    + destruct L as (_ & sn2 & X & _). discriminate X.
  - destruct (d_ops d n) as [[ch id k]|]; [|discriminate St]. destruct ok; [|discriminate St].
    destruct k; try (destruct (in_range_all _ _ _ _)); discriminate St.
  - discriminate St.
Qed.

Lemma orun_trans es1 : forall s s1 s2 g1 g2 b1 b2 es2, orun c s es1 = Some (s1, g1, b1) -> orun c s1 es2 = Some (s2, g2, b2) ->
  orun c s (es1 ++ es2) = Some (s2, g1 ++ g2, b1 ++ b2).
Proof.
  induction es1 as [|e es1 IH]; intros s s1 s2 g1 g2 b1 b2 es2 A C; cbn [orun app] in *.
  - injection A as <- <- <-. exact C.
  - destruct (ostep c s e) as [[[sa ga] ba]|]; [|discriminate]. destruct (orun c sa es1) as [[[sb gb] bb]|] eqn:X; [|discriminate].
    injection A as <- <- <-. rewrite (IH _ _ _ _ _ _ _ _ X C). now rewrite !app_assoc.
Qed.

Definition all_fit (oes : list (oevent V)) : Prop := forall e, In e oes -> event_fits e.
Lemma fit_app a b : all_fit a -> all_fit b -> all_fit (a ++ b).
Proof. intros A B e X. apply in_app_or in X as [X|X]; auto. Qed.
Lemma fit_one e : event_fits e -> all_fit [e].
Proof. intros A x [<-|[]]. exact A. Qed.

Lemma sim_silents des : forall pe s so d d1 dB, Rel so dB -> Sim pe s so d -> drun msize d des = Some (d1, []) ->
  exists oes so1, orun c so oes = Some (so1, [], []) /\ all_fit oes /\ Rel so1 dB /\ Sim pe s so1 d1.
Proof.
  induction des as [|e des IH]; intros pe s so d d1 dB R Si H; cbn [drun] in H.
  - injection H as <-. exists [], so. split; [reflexivity|]. split; [intros e []|auto].
  - destruct (dstep msize d e) as [[d2 t1]|] eqn:E; [|discriminate]. destruct (drun msize d2 des) as [[d3 t2]|] eqn:E2; [|discriminate].
    injection H as -> H. apply app_eq_nil in H as (-> & ->).
    destruct (sim_silent _ _ _ _ _ _ Si (rel_good _ _ R) E) as (n & so1 & O1 & S1).
    assert (R1 : Rel so1 dB) by exact (rel_step so dB (OOwn (EMApply n)) so1 [] [] [] dB R I O1 eq_refl).
    destruct (IH _ _ _ _ _ _ R1 S1 E2) as (oes & so2 & O2 & F2 & R2 & S2).
    exists (OOwn (EMApply n) :: oes), so2. split; [cbn [orun]; now rewrite O1, O2|]. split; [|auto].
    intros e0 [<-|X]; [exact I|exact (F2 _ X)].
Qed.

Lemma sim_announced des pe s so d d1 dB : Rel so dB -> Sim pe s so d -> drun msize d des = Some (d1, announced pe) ->
  exists oes so1, orun c so oes = Some (so1, [], []) /\ all_fit oes /\ Rel so1 dB /\ Sim None s so1 d1.
Proof.
  intros R Si H. destruct pe as [[[n st] r]|]; [|exact (sim_silents _ _ _ _ _ _ _ R Si H)].
  destruct (drun_item _ _ _ _ _ _ H) as (e0 & e & e2 & da & db & R1 & R2 & R3).
  destruct (sim_silents _ _ _ _ _ _ _ R Si R1) as (oes1 & so1 & O1 & F1 & Q1 & S1).
  apply item_issue in R2 as [_ ->].
  assert (S2 : Sim None s so1 (dissue n 0 st r da)).
  { destruct S1 as [A So Sp Sh Sx Sd]. constructor; auto; [|discriminate].
    intros m _. cbn [dissue d_ops]. unfold upd. destruct (Nat.eqb_spec m n) as [->|Hm].
    - exact (proj2 (Sp n st r eq_refl)).
    - apply So. intros st' r' X. injection X as X _ _. congruence. }
  destruct (sim_silents _ _ _ _ _ _ _ Q1 S2 R3) as (oes2 & so2 & O2 & F2 & Q2 & S3).
  exists (oes1 ++ oes2), so2. split; [exact (orun_trans _ _ _ _ _ _ _ _ _ O1 O2)|]. split; [apply fit_app; auto|auto].
Qed.

(** ** The calls of one step *)

Lemma mcalls_same (s s' : state V) : mops s' = mops s -> mcalls c s s' = [].
Proof.
  intros E. unfold mcalls. rewrite E. induction (seq 0 (next s')) as [|n l IH]; [reflexivity|]. cbn [flat_map]. rewrite IH.
  destruct (mops s n) as [[| ]|]; reflexivity.
Qed.

Lemma mcalls_one (s s' : state V) n x : mops s n = None -> mops s' = upd (mops s) n (Some x) -> next s' = S n ->
  mcalls c s s' = match x with
                  | MWrite st g b _ => [TIssue n 0 st (RWrite (1 + g) [header_bytes c (mbufs s' b) st])]
                  | MFlush st _ => [TIssue n 0 st RFlush]
                  end.
Proof.
  intros En E Nx. unfold mcalls. rewrite Nx, E, seq_S, flat_map_app. cbn [flat_map plus]. rewrite app_nil_r, En, upd_eq.
  match goal with |- ?l ++ _ = _ => assert (Z : l = []) end.
  { assert (Y : forall m, In m (seq 0 n) -> m < n) by (intros m Hm; apply in_seq in Hm; lia).
    induction (seq 0 n) as [|m l IH]; [reflexivity|]. cbn [flat_map]. rewrite IH by (intros; apply Y; now right).
    rewrite upd_neq by (specialize (Y m (or_introl eq_refl)); lia). destruct (mops s m) as [[|]|]; reflexivity. }
  rewrite Z. destruct x; reflexivity.
Qed.

(** After a call of the flusher. *)
Lemma sim_called (s so s' so' : state V) M M' H D d r :
  good so -> mops s = M -> Sim None s so d -> called c so so' M M' D r -> mh so' = mh so -> mdone so' = mdone so ->
  s' = mpatch M' H D (mbufs so') so' -> mcalls c s s' = announced r /\ Sim r s' so' d.
Proof.
  intros G <- Si Cl Eh Ed ->. destruct Si as [(M0 & H0 & D0 & Es) So Sp Sh Sx Sd].
  assert (Nn : forall n, (forall o, mops so n <> Some o) -> d_ops d n = None /\ mops s n = None).
  { intros n Hn. specialize (So n ltac:(discriminate)). unfold mlinked in So. destruct (mops so n) as [o|]; [exfalso; exact (Hn o eq_refl)|].
    destruct (mops s n) as [[|]|]; try contradiction. auto. }
  assert (Nx : d_ops d (next so) = None /\ mops s (next so) = None).
  { apply Nn. intros o X. apply (g_new _ G) in X. lia. }
  destruct Nx as (Nd & Ns).
  destruct Cl as [E1 E2 E3|st b hb Hst (av & Av) E1 E2 E3 E4|st E1 E2 E3 E4].
  - split; [apply mcalls_same; exact E2|]. constructor.
    + eauto.
    + intros n Hn. change (mops (mpatch M' H D (mbufs so') so')) with M'. rewrite E1, E2, E3. exact (So n Hn).
    + discriminate.
    + rewrite Eh. exact Sh.
    + exact Sx.
    + rewrite Ed. exact Sd.
  - assert (Bn : forall n st0 g0 b0 ap0, mops so n = Some (MWrite st0 g0 b0 ap0) -> b0 <> b).
    { intros n st0 g0 b0 ap0 X ->. destruct (g_write _ G _ _ _ _ _ X) as (_ & _ & Y). rewrite (g_free _ G b) in Y; [discriminate|]. rewrite Av. now left. }
    split.
    + rewrite (mcalls_one s _ (next so) (MWrite st (group_of c st) b false)); [|exact Ns|exact E2|exact E4].
      change (mbufs (mpatch M' H D (mbufs so') so')) with (mbufs so'). rewrite E3, upd_eq. reflexivity.
    + constructor.
      * eauto.
      * intros n Hn. change (mops (mpatch M' H D (mbufs so') so')) with M'. rewrite E1, E2, E3. assert (n <> next so) by (intros ->; eapply Hn; reflexivity).
        rewrite !upd_neq by auto. specialize (So n ltac:(discriminate)). unfold mlinked in *.
        destruct (mops s n) as [[s1 g1 b1 a1|]|], (mops so n) as [[s2 g2 b2 a2|]|] eqn:Mo; auto.
        destruct So as (X1 & X2 & X3 & X4). rewrite upd_neq; [auto|]. subst b2. eapply Bn; eauto.
      * intros n st0 r X. injection X as <- <- <-. split; [exact Nd|]. change (mops (mpatch M' H D (mbufs so') so')) with M'.
        rewrite E1, E2, E3, !upd_eq. cbn. rewrite upd_eq. repeat split. eexists. split; reflexivity.
      * rewrite Eh. exact Sh.
      * exact Sx.
      * rewrite Ed. exact Sd.
  - split.
    + rewrite (mcalls_one s _ (next so) (MFlush st D)); [reflexivity|exact Ns|exact E2|exact E4].
    + constructor.
      * eauto.
      * intros n Hn. change (mops (mpatch M' H D (mbufs so') so')) with M'. rewrite E1, E2, E3. assert (n <> next so) by (intros ->; eapply Hn; reflexivity).
        rewrite !upd_neq by auto. exact (So n ltac:(discriminate)).
      * intros n st0 r X. injection X as <- <- <-. split; [exact Nd|]. change (mops (mpatch M' H D (mbufs so') so')) with M'.
        rewrite E1, E2, !upd_eq. cbn. split; [reflexivity|]. eexists. split; [reflexivity|]. exact Sd.
      * rewrite Eh. exact Sh.
      * exact Sx.
      * rewrite Ed. exact Sd.
Qed.

(** ** One event *)

Lemma sim_pstep s so d e s' g b m : good so -> Sim None s so d -> pstep c s (PStep e) = Some (s', g, b, m) ->
  exists so' pe, m = announced pe /\ ostep c so e = Some (so', g, b) /\ Sim pe s' so' d.
Proof.
  intros G Si St. cbn [pstep] in St. destruct (metadata_step e) eqn:Me; [discriminate|].
  destruct (ostep c s e) as [[[s1 g1] b1]|] eqn:Os; [|discriminate]. injection St as <- <- <- <-.
  destruct (flusher_step e) eqn:Fe.
  - assert (e = OOwn EWStartWrite) by (destruct e as [[]|n ok data|bb i v|pm]; cbn in Fe, Me; try discriminate; reflexivity). subst e.
    destruct (sm_state _ _ _ _ Si) as (M & H & D & Es). cbn [ostep own] in *.
    assert (Pn : panic s = false) by (rewrite Es; exact (g_panic _ G)). unfold step in *. rewrite Pn in Os. rewrite (g_panic _ G).
    assert (Wd : wdone s = wdone so) by (now rewrite Es). unfold worker in *. rewrite Wd in Os. destruct (wdone so).
    + injection Os as <- <- <-. exists so, None. split; [now apply mcalls_same|]. split; [rewrite !calls_same by reflexivity; reflexivity|exact Si].
    + injection Os as <- <- <-. assert (Em : mops s = M) by (now rewrite Es). rewrite Es in *.
      destruct (smw_patch c so M H D) as (M' & r & Ep & Cl & Eh & Ed & Eo). rewrite Ep.
      destruct (sim_called _ _ _ _ M M' H D d r G Em Si Cl Eh Ed eq_refl) as (X & Y).
      exists (start_meta_write c so), r. split; [exact X|]. split; [|exact Y]. rewrite !calls_same; [reflexivity|exact Eo|exact Eo].
  - destruct (sm_state _ _ _ _ Si) as (M & H & D & Es). assert (Em : mops s = M) by (now rewrite Es).
    rewrite Es, (q_ostep c e M H D (mbufs so) so Fe) in Os. destruct (ostep c so e) as [[[so' g'] b']|] eqn:Oo; [|discriminate].
    injection Os as <- <- <-. destruct (ostep_frame c _ _ _ _ _ Fe Oo) as (F1 & F2 & F3 & F4).
    destruct (sim_called s so (mpatch M H D (mbufs so) so') so' M M H D d None G Em Si) as (X & Y); auto.
    + now apply cl_none.
    + now rewrite F4.
    + exists so', None. auto.
Qed.

Lemma Forall2_trim {A B} (R : nat * A -> nat * B -> Prop) p p' : (forall n, p n = p' n) -> (forall e e', R e e' -> fst e = fst e') ->
  forall l l', Forall2 R l l' -> Forall2 R (trim p l) (trim p' l').
Proof.
  intros E F l l' H. induction H as [|e e' l l' H1 H2 IH]; [constructor|]. cbn [trim]. rewrite <- (F _ _ H1), E.
  destruct (p' (fst e)); constructor; auto.
Qed.

Lemma sim_pmeta s so d n ok s' g b m d1 i rest e : good so -> Sim None s so d -> pstep c s (PMeta n ok) = Some (s', g, b, m) ->
  m = i :: rest -> dstep msize d e = Some (d1, [i]) ->
  exists so' pe, rest = announced pe /\ ostep c so (OOwn (EWMetaDone n ok)) = Some (so', [], []) /\ Sim pe s' so' d1 /\ g = [] /\ b = [].
Proof.
  intros G Si St Em Sd. cbn [pstep] in St. destruct (panic s || wdone s) eqn:Pw; [discriminate|]. apply orb_false_iff in Pw as (_ & Wd).
  destruct (mops s n) as [o|] eqn:Mn; [|discriminate]. injection St as <- <- <- <-. injection Em as <- <-.
  apply item_done in Sd as (k & Ek & Sd). destruct Si as [(M & H & D & Es) So Sp Sh Sx Sdn]. pose proof (So n ltac:(discriminate)) as L.
  assert (Ms : mops s = M) by (now rewrite Es). assert (Wo : wdone so = false) by (rewrite Es in Wd; exact Wd).
  rewrite Ek, Mn in L.
  (* the states after the operation is gone *)
  assert (Gen : forall mh1 md1, (forall st, st < nst c -> Forall2 (same_entry st) (mh1 (group_of c st)) (d_hist d1 (1 + group_of c st))) ->
     (forall x, (forall st, st < nst c -> x <> 1 + group_of c st) -> d_hist d1 x = [(0, mbase x)]) ->
     (forall m, md1 m = d_done d1 m) -> (forall m, d_ops d1 m = upd (d_ops d) n None m) ->
     let so1 := set_mh mh1 (set_mdone md1 (set_mops (upd (mops so) n None) so)) in
     exists pe, mcalls c (set_mops (upd (mops s) n None) s) (meta_completion c (stripe_of o) ok (set_mops (upd (mops s) n None) s)) = announced pe /\
       Sim pe (meta_completion c (stripe_of o) ok (set_mops (upd (mops s) n None) s)) (meta_completion c (stripe_of o) ok so1) d1).
  { intros mh1 md1 Sh1 Sx1 Sd1 So1 so1. set (M1 := upd (mops s) n None).
    assert (E1 : set_mops M1 s = mpatch M1 H D (mbufs so1) so1) by (rewrite Es; reflexivity).
    assert (G1 : good so1).
    { destruct G as [Gp Gn Gw Gf]. constructor; auto.
      - intros m o0. change (mops so1) with (upd (mops so) n None). unfold upd. destruct (m =? n); [discriminate|]. apply Gn.
      - intros m st gg bb ap. change (mops so1) with (upd (mops so) n None). unfold upd. destruct (m =? n); [discriminate|]. apply Gw. }
    assert (Si1 : Sim None (set_mops M1 s) so1 d1).
    { constructor; auto.
      - rewrite E1. eauto.
      - intros m _. change (mops (set_mops M1 s)) with M1. change (mops so1) with (upd (mops so) n None). change (mbufs so1) with (mbufs so). rewrite So1. unfold M1, upd.
        destruct (m =? n); [reflexivity|]. exact (So m ltac:(discriminate)).
      - discriminate. }
    destruct (completion_patch c (stripe_of o) ok so1 M1 H D) as (M' & r & Ep & Cl & Eh & Ed). exists r. rewrite E1 in *. rewrite Ep.
    apply (sim_called _ so1 _ _ M1 M' H D d1 r G1); auto. }
  cbn [ostep own]. unfold step. rewrite (g_panic _ G). unfold worker. rewrite Wo. unfold meta_done.
  assert (Co : forall so1, ops (meta_completion c (stripe_of o) ok so1) = ops so1) by (intros; apply LayerPatch.meta_completion_ops).
  destruct o as [st gg bb ap0|st sn0], (mops so n) as [[st' gg' bb' ap|st' sn]|] eqn:Mo; cbn in L; try contradiction; cbn [stripe_of] in *.
  - destruct L as (-> & -> & -> & apf & X & Ea). injection X as ->. cbn [dstep] in Sd. rewrite Ek in Sd. destruct ok.
    + destruct (in_range_all msize (S gg) (length [_]) apf) eqn:Ra; [|discriminate]. injection Sd as <-.
      destruct (g_write _ G _ _ _ _ _ Mo) as (Eg & Hst & _). assert (Ap : ap = true).
      { unfold in_range_all in Ra. cbn [length seq forallb] in Ra. rewrite andb_true_r in Ra. pose proof (Room st Hst) as Rm. rewrite <- Eg in Rm.
        replace (S gg + 0 <? msize) with true in Ra by (symmetry; apply Nat.ltb_lt; lia). cbn [negb orb] in Ra. congruence. }
      rewrite Ap. cbn [andb negb].
      destruct (Gen (mh so) (upd (mdone so) n true)) as (pe & Mc & Si); cbn [d_hist d_done d_ops]; auto.
      { intros m. unfold upd. destruct (m =? n); auto. }
      eexists _, pe. split; [exact Mc|]. split; [rewrite calls_same; [reflexivity|]; rewrite Co; reflexivity|]. split; [exact Si|auto].
    + injection Sd as <-. cbn [andb].
      destruct (Gen (mh so) (mdone so)) as (pe & Mc & Si); cbn [finish d_hist d_done d_ops]; auto.
      eexists _, pe. split; [exact Mc|]. split; [rewrite calls_same; [reflexivity|]; rewrite Co; reflexivity|]. split; [exact Si|auto].
  - destruct L as (-> & sn' & X & En). injection X as ->. cbn [dstep] in Sd. rewrite Ek in Sd. destruct ok.
    + injection Sd as <-.
      destruct (Gen (fun gr => trim sn (mh so gr)) (mdone so)) as (pe & Mc & Si); cbn [d_hist d_done d_ops]; auto.
      { intros st0 Hst0. apply Forall2_trim; auto. intros x y Hxy. exact (proj1 Hxy). }
      { intros x Hx. rewrite (Sx x Hx). cbn [trim fst]. destruct (sn' 0); reflexivity. }
      eexists _, pe. split; [exact Mc|]. split; [rewrite calls_same; [reflexivity|]; rewrite Co; reflexivity|]. split; [exact Si|auto].
    + injection Sd as <-.
      destruct (Gen (mh so) (mdone so)) as (pe & Mc & Si); cbn [finish d_hist d_done d_ops]; auto.
      eexists _, pe. split; [exact Mc|]. split; [rewrite calls_same; [reflexivity|]; rewrite Co; reflexivity|]. split; [exact Si|auto].
Qed.

(** ** All events *)

Definition pevent_fits (e : pevent V) : Prop := match e with PStep e => event_fits e | PMeta _ _ => True end.

Lemma sim_prun pes : forall s so d dB s' g b m des d1 desB dB1, Rel so dB -> Sim None s so d -> (forall e, In e pes -> pevent_fits e) ->
  prun c s pes = Some (s', g, b, m) -> drun msize d des = Some (d1, m) -> drun (target c) dB desB = Some (dB1, b) ->
  exists oes so1, orun c so oes = Some (so1, g, b) /\ all_fit oes /\ Rel so1 dB1 /\ Sim None s' so1 d1.
Proof.
  induction pes as [|e pes IH]; intros s so d dB s' g b m des d1 desB dB1 R Si Fi Hp Hd Hb; cbn [prun] in Hp.
  - injection Hp as <- <- <- <-. destruct (sim_silents _ _ _ _ _ _ _ R Si Hd) as (oes & so1 & O1 & F1 & R1 & S1).
    exists oes, so1. split; [exact O1|]. split; [exact F1|]. split; [|exact S1]. destruct R1 as (es & O & B & D & F & R1).
    destruct (LayerProofs.sim_silents c base h WC _ _ _ _ _ _ _ _ _ _ R1 Hb) as (es' & O' & B' & R2 & _). exists (es ++ es'), O', B', D, F. exact R2.
  - destruct (pstep c s e) as [[[[s1 g1] b1] m1]|] eqn:E; [|discriminate]. destruct (prun c s1 pes) as [[[[s2 g2] b2] m2]|] eqn:E2; [|discriminate].
    injection Hp as <- <- <- <-. destruct (drun_cut _ _ _ _ _ _ Hd) as (x1 & x2 & dm & D1 & D2). destruct (drun_cut _ _ _ _ _ _ Hb) as (y1 & y2 & dBm & B1 & B2).
    assert (X : exists oes so1, orun c so oes = Some (so1, g1, b1) /\ all_fit oes /\ Rel so1 dBm /\ Sim None s1 so1 dm).
    { destruct e as [e|n ok].
      - destruct (sim_pstep _ _ _ _ _ _ _ _ (rel_good _ _ R) Si E) as (so1 & pe & -> & O1 & S1).
        assert (Fe : event_fits e) by exact (Fi _ (or_introl eq_refl)).
        pose proof (rel_step _ _ _ _ _ _ _ _ R Fe O1 B1) as R1.
        destruct (sim_announced _ _ _ _ _ _ _ R1 S1 D1) as (oes & so2 & O2 & F2 & R2 & S2).
        exists ([e] ++ oes), so2. split.
        + pose proof (orun_trans [e] so so1 so2 g1 [] b1 [] oes) as T. rewrite !app_nil_r in T. apply T; [|exact O2].
          cbn [orun]. rewrite O1, !app_nil_r. reflexivity.
        + split; [apply fit_app; [now apply fit_one|exact F2]|auto].
      - assert (Em : exists i rest, m1 = i :: rest).
        { clear - E. cbn [pstep] in E. destruct (panic s || wdone s); [discriminate|]. destruct (mops s n); [|discriminate]. injection E as <- <- <- <-. eauto. }
        destruct Em as (i & rest & Em). pose proof D1 as D1'. rewrite Em in D1'.
        destruct (drun_item _ _ _ _ _ _ D1') as (z0 & z & z2 & da & db & Z1 & Z2 & Z3).
        destruct (sim_silents _ _ _ _ _ _ _ R Si Z1) as (oes1 & so1 & O1 & F1 & R1 & S1).
        destruct (sim_pmeta _ _ _ _ _ _ _ _ _ _ _ _ _ (rel_good _ _ R1) S1 E Em Z2) as (so2 & pe & -> & O2 & S2 & -> & ->).
        pose proof (rel_step _ _ (OOwn (EWMetaDone n ok)) _ _ _ _ _ R1 I O2 B1) as R2.
        destruct (sim_announced _ _ _ _ _ _ _ R2 S2 Z3) as (oes3 & so3 & O3 & F3 & R3 & S3).
        exists (oes1 ++ ([OOwn (EWMetaDone n ok)] ++ oes3)), so3. split.
        + apply (orun_trans oes1 so so1 so3 [] [] [] [] _ O1). apply (orun_trans [OOwn (EWMetaDone n ok)] so1 so2 so3 [] [] [] [] _); [|exact O3].
          cbn [orun]. rewrite O2. reflexivity.
        + split; [apply fit_app; [exact F1|apply fit_app; [now apply fit_one|exact F3]]|auto]. }
    destruct X as (oes1 & so1 & O1 & F1 & R1 & S1).
    destruct (IH _ _ _ _ _ _ _ _ _ _ _ _ R1 S1 (fun e0 Y => Fi e0 (or_intror Y)) E2 D2 B2) as (oes2 & so2 & O2 & F2 & R2 & S2).
    exists (oes1 ++ oes2), so2. split; [exact (orun_trans _ _ _ _ _ _ _ _ _ O1 O2)|]. split; [apply fit_app; auto|auto].
Qed.

Lemma sim_start : Sim None (oinit c h) (oinit c h) (new_disk mbase).
Proof.
  constructor.
  - exists (mops (oinit c h)), (mh (oinit c h)), (mdone (oinit c h)). symmetry. apply mpatch_self.
  - intros n _. reflexivity.
  - discriminate.
  - intros st Hst. cbn. constructor; [|constructor]. split; [reflexivity|]. right. split; reflexivity.
  - intros x _. reflexivity.
  - intros n. reflexivity.
Qed.

(** Until a crash, and what is then on the metadata device. *)
Theorem meta_open_is_closed pes s g b m d dB : (forall e, In e pes -> pevent_fits e) ->
  prun c (oinit c h) pes = Some (s, g, b, m) ->
  disk_behaviour msize mbase (m ++ [TCrash]) d -> disk_behaviour (target c) base (b ++ [TCrash]) dB ->
  exists oes pm so, all_fit oes /\ orun c (oinit c h) (oes ++ [OCrash pm]) = Some (so, g ++ [TCrash], b ++ [TCrash]) /\
    (forall st, st < nst c ->
       cur (d_hist d (1 + group_of c st)) = Some (header_bytes c (loaded_headers c (mh so)) st) \/
       (cur (d_hist d (1 + group_of c st)) = Some (mbase (1 + group_of c st)) /\
        forall i, group_of c i = group_of c st -> loaded_headers c (mh so) i = h i)) /\
    (forall x, (forall st, st < nst c -> x <> 1 + group_of c st) -> cur (d_hist d x) = Some (mbase x)).
Proof.
  intros Fi Hp (des & Hd) (desB & Hb).
  destruct (drun_cut _ _ _ _ _ _ Hd) as (x1 & x2 & d1 & D1 & D2). destruct (drun_cut _ _ _ _ _ _ Hb) as (y1 & y2 & dB1 & B1 & _).
  assert (R0 : Rel (oinit c h) (new_disk base)).
  { eexists _, _, _, _, _. apply LayerProofs.related_init. }
  destruct (sim_prun _ _ _ _ _ _ _ _ _ _ _ _ _ R0 sim_start Fi Hp D1 B1) as (oes & so & O1 & F1 & R1 & S1).
  destruct (drun_item _ _ _ _ _ _ D2) as (z0 & z & z2 & da & db & Z1 & Z2 & Z3).
  destruct (sim_silents _ _ _ _ _ _ _ R1 S1 Z1) as (oes2 & so2 & O2 & F2 & R2 & S2).
  apply item_crash in Z2 as (p & ->). apply RestartFacts.stuck_after_crash in Z3; [|reflexivity]. subst d. cbn [d_hist].
  set (pm := fun g : nat => p (1 + g)).
  exists (oes ++ oes2), pm, (crash c (fun _ => 0) pm so2). split; [now apply fit_app|]. split.
  - apply (orun_trans _ _ so2); [|reflexivity]. pose proof (orun_trans _ _ _ _ _ _ _ _ _ O1 O2) as T. now rewrite !app_nil_r in T.
  - destruct S2 as [_ _ _ Sh Sx _]. split.
    + intros st Hst. specialize (Sh st Hst).
      assert (X : exists e e', same_entry st e e' /\ crashed (mh so2 (group_of c st)) (pm (group_of c st)) = [(0, snd e)] /\
        crashed (d_hist da (1 + group_of c st)) (p (1 + group_of c st)) = [(0, snd e')]).
      { assert (Ne : mh so2 (group_of c st) <> []).
        { destruct R2 as (es & OO & BB & DD & FF & R2). destruct (LayerProofs.r_ok c base h WC _ _ _ _ _ _ _ _ R2) as [[HI _ _] _].
          exact (i_M_nonempty _ _ _ HI (group_of c st)). }
        unfold pm, crashed. set (i := p (1 + group_of c st)). clear - Sh Ne.
        assert (Nt : forall j, match nth_error (mh so2 (group_of c st)) j, nth_error (d_hist da (1 + group_of c st)) j with
          | Some e, Some e' => same_entry st e e' | None, None => True | _, _ => False end).
        { clear Ne. induction Sh as [|e e' l l' H1 H2 IH]; intros [|j]; cbn; auto. apply IH. }
        specialize (Nt i). destruct (nth_error (mh so2 (group_of c st)) i) as [e|], (nth_error (d_hist da (1 + group_of c st)) i) as [e'|]; try contradiction; [eauto|].
        destruct Sh as [|e e' l l' H1 H2]; [congruence|]. eauto. }
      destruct X as (e & e' & (_ & Hse) & X1 & X2).
      assert (Ld : forall i, group_of c i = group_of c st -> loaded_headers c (mh (crash c (fun _ => 0) pm so2)) i = snd e i).
      { intros i Hi. unfold loaded_headers. rewrite Hi. change (mh (crash c (fun _ => 0) pm so2) (group_of c st)) with (crashed (mh so2 (group_of c st)) (pm (group_of c st))).
        rewrite X1. reflexivity. }
      rewrite X2. cbn [cur]. destruct Hse as [->|(E1 & ->)].
      * left. f_equal. apply header_bytes_agree; auto. intros i _ Hi. symmetry. now apply Ld.
      * right. split; [reflexivity|]. intros i Hi. rewrite (Ld i Hi). now rewrite E1.
    + intros x Hx. rewrite (Sx x Hx). unfold crashed. destruct (p x) as [|[|]]; reflexivity.
Qed.
(** ** The contracts of the two devices *)

(** Whatever the metadata device reports, the guest and the base device see a run of
    LayerModel.v. *)
Definition malike (a b : option mop) : Prop :=
  match a, b with
  | None, None => True
  | Some (MWrite st g buf _), Some (MWrite st' g' buf' _) => st' = st /\ g' = g /\ buf' = buf
  | Some (MFlush st _), Some (MFlush st' _) => st' = st
  | _, _ => False
  end.

Definition Loose (s so : state V) : Prop :=
  (exists M H D, s = mpatch M H D (mbufs so) so) /\ forall n, malike (mops s n) (mops so n).

Lemma loose_called (so so' : state V) M M' D r : (forall n, malike (M n) (mops so n)) -> called c so so' M M' D r -> forall n, malike (M' n) (mops so' n).
Proof.
  intros A [E1 E2 E3|st b hb Hst Av E1 E2 E3 E4|st E1 E2 E3 E4] n; rewrite E1, E2; [apply A| |]; unfold upd; (destruct (n =? next so); [cbn; auto|apply A]).
Qed.

Lemma loose_step s so e s' g b m : Loose s so -> pevent_fits e -> pstep c s e = Some (s', g, b, m) ->
  exists oes so', orun c so oes = Some (so', g, b) /\ all_fit oes /\ Loose s' so'.
Proof.
  intros ((M & H & D & Es) & A) Fi St. assert (Em : mops s = M) by (now rewrite Es). destruct e as [e|n ok]; cbn [pstep] in St.
  - destruct (metadata_step e) eqn:Me; [discriminate|]. destruct (ostep c s e) as [[[s1 g1] b1]|] eqn:Os; [|discriminate]. injection St as <- <- <- _.
    assert (X : exists so', ostep c so e = Some (so', g1, b1) /\ Loose s1 so').
    2:{ destruct X as (so' & O & L). exists [e], so'. split; [cbn [orun]; now rewrite O, !app_nil_r|]. split; [now apply fit_one|exact L]. }
    destruct (flusher_step e) eqn:Fe.
    + assert (e = OOwn EWStartWrite) by (destruct e as [[]|n ok data|bb i v|pm]; cbn in Fe, Me; try discriminate; reflexivity). subst e.
      cbn [ostep own] in *. unfold step in *. assert (Pn : panic s = panic so) by (now rewrite Es). rewrite Pn in Os.
      assert (Wd : wdone s = wdone so) by (now rewrite Es). unfold worker in *. rewrite Wd in Os.
      assert (Same : Loose s so) by (split; [eauto|exact A]).
      destruct (panic so); [injection Os as <- <- <-; exists so; split; [rewrite !calls_same by reflexivity; reflexivity|exact Same]|].
      destruct (wdone so); [injection Os as <- <- <-; exists so; split; [rewrite !calls_same by reflexivity; reflexivity|exact Same]|].
      injection Os as <- <- <-. destruct (smw_patch c so M H D) as (M' & r & Ep & Cl & Eh & Ed & Eo). rewrite Em in A. rewrite Es. rewrite Ep.
      exists (start_meta_write c so). split; [rewrite !calls_same; [reflexivity|exact Eo|exact Eo]|]. split; [eauto|].
      exact (loose_called _ _ _ _ _ _ A Cl).
    + rewrite Es, (q_ostep c e M H D (mbufs so) so Fe) in Os. destruct (ostep c so e) as [[[so' g'] b']|] eqn:Oo; [|discriminate].
      injection Os as <- <- <-. destruct (ostep_frame c _ _ _ _ _ Fe Oo) as (F1 & F2 & F3 & F4). exists so'. split; [reflexivity|]. split.
      * rewrite <- F4. eauto.
      * change (mops (mpatch M H D (mbufs so) so')) with M. rewrite F1, <- Em. exact A.
  - destruct (panic s || wdone s) eqn:Pw; [discriminate|]. apply orb_false_iff in Pw as (Pn & Wd). destruct (mops s n) as [o|] eqn:Mn; [|discriminate].
    injection St as <- <- <- _. assert (Pn' : panic so = false) by (now rewrite Es in Pn). assert (Wd' : wdone so = false) by (now rewrite Es in Wd).
    set (M1 := upd (mops s) n None).
    (* once the write, if it is one, has reached the medium *)
    assert (Fin : forall so0, Loose s so0 -> panic so0 = false -> wdone so0 = false ->
      (forall st gg bb ap, mops so0 n = Some (MWrite st gg bb ap) -> ap = true) ->
      exists so', ostep c so0 (OOwn (EWMetaDone n ok)) = Some (so', [], []) /\ Loose (meta_completion c (stripe_of o) ok (set_mops M1 s)) so').
    { clear so Es A Pn' Wd'. intros so ((M2 & H2 & D2 & Es) & A) Po Wo Ap. cbn [ostep own]. unfold step. rewrite Po. unfold worker. rewrite Wo. unfold meta_done.
      pose proof (A n) as An. rewrite Mn in An.
      assert (Gen : forall mh1 md1, let so1 := set_mh mh1 (set_mdone md1 (set_mops (upd (mops so) n None) so)) in
        Loose (meta_completion c (stripe_of o) ok (set_mops M1 s)) (meta_completion c (stripe_of o) ok so1)).
      { intros mh1 md1 so1. assert (E1 : set_mops M1 s = mpatch M1 H2 D2 (mbufs so1) so1) by (rewrite Es; reflexivity).
        destruct (completion_patch c (stripe_of o) ok so1 M1 H2 D2) as (M' & r & Ep & Cl & _). rewrite E1, Ep. split; [eauto|].
        apply (loose_called so1 _ M1 M' D2 r); [|exact Cl]. intros m0. change (mops so1) with (upd (mops so) n None). unfold M1, upd. destruct (m0 =? n); [exact I|apply A]. }
      assert (Co : forall so1, ops (meta_completion c (stripe_of o) ok so1) = ops so1) by (intros; apply LayerPatch.meta_completion_ops).
      destruct o as [st gg bb ap0|st sn0], (mops so n) as [[st' gg' bb' ap|st' sn]|] eqn:Mo; cbn in An; try contradiction; cbn [stripe_of] in *.
      - destruct An as (-> & -> & ->). rewrite (Ap _ _ _ _ eq_refl). rewrite andb_false_r.
        destruct ok; (eexists; split; [rewrite calls_same; [reflexivity|]; rewrite Co; reflexivity|]).
        + exact (Gen (mh so) (upd (mdone so) n true)).
        + exact (Gen (mh so) (mdone so)).
      - subst st'. destruct ok; (eexists; split; [rewrite calls_same; [reflexivity|]; rewrite Co; reflexivity|]).
        + exact (Gen (fun gr => trim sn (mh so gr)) (mdone so)).
        + exact (Gen (mh so) (mdone so)). }
    assert (L0 : Loose s so) by (split; [eauto|exact A]).
    destruct (mops so n) as [[st gg bb [|]|]|] eqn:Mo.
    + destruct (Fin so L0 Pn' Wd') as (so' & O & L); [intros st1 g1 b1 ap1 X; rewrite Mo in X; now injection X as _ _ _ <-|].
      exists [OOwn (EWMetaDone n ok)], so'. split; [cbn [orun]; now rewrite O|]. split; [now apply fit_one|exact L].
    + set (so0 := meta_apply n so).
      assert (E0 : so0 = set_mops (upd (mops so) n (Some (MWrite st gg bb true))) (set_mh (upd (mh so) gg ((n, mbufs so bb) :: mh so gg)) so))
        by (unfold so0, meta_apply; now rewrite Mo).
      destruct (Fin so0) as (so' & O & L).
      * rewrite E0. split; [exists M, H, D; rewrite Es; reflexivity|]. intros m0. change (mops (set_mops ?x _)) with x. unfold upd.
        destruct (Nat.eqb_spec m0 n) as [->|]; [|apply A]. pose proof (A n) as An. rewrite Mo, Mn in An. rewrite Mn. destruct o; cbn in *; auto.
      * now rewrite E0.
      * now rewrite E0.
      * rewrite E0. intros st1 g1 b1 ap1. change (mops (set_mops ?x _)) with x. rewrite upd_eq. intros X. now injection X as _ _ _ <-.
      * exists [OOwn (EMApply n); OOwn (EWMetaDone n ok)], so'. split; [|split; [intros e [<-|[<-|[]]]; exact I|exact L]].
        cbn [orun]. replace (ostep c so (OOwn (EMApply n))) with (Some (so0, @nil (titem V), @nil (titem V))); [now rewrite O|].
        cbn [ostep own]. unfold step. rewrite Pn'. rewrite calls_same; [reflexivity|]. fold so0. now rewrite E0.
    + destruct (Fin so L0 Pn' Wd') as (so' & O & L); [intros st1 g1 b1 ap1 X; rewrite Mo in X; discriminate|].
      exists [OOwn (EWMetaDone n ok)], so'. split; [cbn [orun]; now rewrite O|]. split; [now apply fit_one|exact L].
    + pose proof (A n) as An. rewrite Mo, Mn in An. destruct o; contradiction.
Qed.

Lemma loose_run pes : forall s so s' g b m, Loose s so -> (forall e, In e pes -> pevent_fits e) -> prun c s pes = Some (s', g, b, m) ->
  exists oes so', orun c so oes = Some (so', g, b) /\ all_fit oes /\ Loose s' so'.
Proof.
  induction pes as [|e pes IH]; intros s so s' g b m L Fi Hp; cbn [prun] in Hp.
  - injection Hp as <- <- <- <-. exists [], so. split; [reflexivity|]. split; [intros e []|exact L].
  - destruct (pstep c s e) as [[[[s1 g1] b1] m1]|] eqn:E; [|discriminate]. destruct (prun c s1 pes) as [[[[s2 g2] b2] m2]|] eqn:E2; [|discriminate].
    injection Hp as <- <- <- <-. destruct (loose_step _ _ _ _ _ _ _ L (Fi _ (or_introl eq_refl)) E) as (oes1 & so1 & O1 & F1 & L1).
    destruct (IH _ _ _ _ _ _ L1 (fun e0 Y => Fi e0 (or_intror Y)) E2) as (oes2 & so2 & O2 & F2 & L2).
    exists (oes1 ++ oes2), so2. split; [exact (orun_trans _ _ _ _ _ _ _ _ _ O1 O2)|]. split; [now apply fit_app|exact L2].
Qed.

Lemma base_sees_layer pes s g b m : (forall e, In e pes -> pevent_fits e) -> prun c (oinit c h) pes = Some (s, g, b, m) ->
  exists oes so, orun c (oinit c h) oes = Some (so, g, b) /\ all_fit oes /\ shf so = shf s.
Proof.
  intros Fi Hp. assert (L : Loose (oinit c h) (oinit c h)).
  2:{ destruct (loose_run pes _ _ _ _ _ _ L Fi Hp) as (oes & so & O & F & (M & H & D & ->) & _). exists oes, so. auto. }
  split.
  - exists (mops (oinit c h)), (mh (oinit c h)), (mdone (oinit c h)). symmetry. apply mpatch_self.
  - intros n. exact I.
Qed.

(** The call just made does not use the id of one in flight. *)
Lemma pe_free n st r s so d dB : Rel so dB -> Sim (Some (n, st, r)) s so d -> forall m k, d_ops d m <> Some (mk_dop 0 st k).
Proof.
  intros (es & O & B & D & F & R) Si m k Em. destruct (LayerProofs.r_ok c base h WC _ _ _ _ _ _ _ _ R) as [[HI _ _] _].
  destruct Si as [_ So Sp _ _ _]. destruct (Sp _ _ _ eq_refl) as (En & Ln).
  assert (Hne : m <> n) by (intros ->; congruence).
  assert (Lm : mlinked (mbufs so) (mops s m) (mops so m) (d_ops d m)) by (apply So; intros st' r' X; injection X as X _ _; congruence).
  rewrite Em in Lm.
  assert (G : forall a b y k0, mlinked (mbufs so) a b y -> y = Some (mk_dop 0 st k0) -> exists o, b = Some o /\ mop_stripe o = st).
  { intros a b y k0 L E. destruct a as [[? ? ? ?|? ?]|], b as [[? ? ? ?|? ?]|]; cbn in L; try contradiction; try congruence.
    - destruct L as (-> & _ & _ & apf & X & _). rewrite X in E. injection E as E _. subst. eexists. split; reflexivity.
    - destruct L as (-> & sn' & X & _). rewrite X in E. injection E as E _. subst. eexists. split; reflexivity. }
  destruct (G _ _ _ _ Lm eq_refl) as (o1 & M1 & S1). destruct (G _ _ _ _ Ln eq_refl) as (o2 & M2 & S2).
  apply Hne. apply (i_M_uniq _ _ _ HI m n o1 o2 M1 M2). congruence.
Qed.

Lemma meta_respects pes : forall s so d dB s' g b m des d1 m1 m2 n q id r desB dB1, Rel so dB -> Sim None s so d ->
  (forall e, In e pes -> pevent_fits e) -> prun c s pes = Some (s', g, b, m) -> drun (target c) dB desB = Some (dB1, b) ->
  m = m1 ++ TIssue n q id r :: m2 -> drun msize d des = Some (d1, m1) -> forall i k, d_ops d1 i <> Some (mk_dop q id k).
Proof.
  induction pes as [|e pes IH]; intros s so d dB s' g b m des d1 m1 m2 n q id r desB dB1 R Si Fi Hp Hb Em Hd; cbn [prun] in Hp.
  - injection Hp as <- <- <- <-. destruct m1; discriminate Em.
  - destruct (pstep c s e) as [[[[s1 g1] b1] me]|] eqn:E; [|discriminate]. destruct (prun c s1 pes) as [[[[s2 g2] b2] mr]|] eqn:E2; [|discriminate].
    injection Hp as <- <- <- <-. destruct (drun_cut _ _ _ _ _ _ Hb) as (y1 & y2 & dBm & B1 & B2).
    (* cut at the call *)
    assert (Cut : (exists b3, m1 = me ++ b3 /\ mr = b3 ++ TIssue n q id r :: m2) \/ (exists x, me = m1 ++ TIssue n q id r :: x)).
    { clear - Em. apply app_eq_app in Em as (l & [[E1 E2]|[E1 E2]]).
      - destruct l as [|i l]; [left; exists []; rewrite app_nil_r in *; cbn in E2; subst; auto|]. cbn in E2. injection E2 as <- E2. right. eauto.
      - left. eauto. }
    destruct Cut as [(b3 & -> & ->)|(x & Ex)].
    + destruct (drun_cut _ _ _ _ _ _ Hd) as (x1 & x2 & dm & D1 & D2).
      assert (X : exists oes so1, orun c so oes = Some (so1, g1, b1) /\ all_fit oes /\ Rel so1 dBm /\ Sim None s1 so1 dm).
      { apply (sim_prun [e] s so d dB s1 g1 b1 me x1 dm y1 dBm R Si); auto.
        - intros e0 [<-|[]]. exact (Fi _ (or_introl eq_refl)).
        - cbn [prun]. rewrite E, !app_nil_r. reflexivity. }
      destruct X as (oes & so1 & _ & _ & R1 & S1).
      exact (IH _ _ _ _ _ _ _ _ _ _ _ _ _ _ _ _ _ _ R1 S1 (fun e0 Y => Fi e0 (or_intror Y)) E2 B2 eq_refl D2).
    + destruct e as [e|nn ok].
      * destruct (sim_pstep _ _ _ _ _ _ _ _ (rel_good _ _ R) Si E) as (so1 & pe & Ea & _).
        assert (m1 = []) by (rewrite Ea in Ex; destruct pe as [[[? ?] ?]|]; destruct m1 as [|i [|j m1]]; try discriminate Ex; reflexivity). subst m1.
        destruct (sim_silents _ _ _ _ _ _ _ R Si Hd) as (oes0 & so0 & O0 & F0 & R0 & S0).
        destruct (sim_pstep _ _ _ _ _ _ _ _ (rel_good _ _ R0) S0 E) as (so2 & pe2 & Ea2 & O2 & S2).
        pose proof (rel_step _ _ _ _ _ _ _ _ R0 (Fi _ (or_introl eq_refl)) O2 B1) as R2.
        rewrite Ea2 in Ex. destruct pe2 as [[[n0 st0] r0]|]; [|discriminate Ex]. cbn in Ex. injection Ex as <- <- <- <- _.
        intros i k. exact (pe_free _ _ _ _ _ _ _ R2 S2 i k).
      * assert (Ei : exists st rest, me = TDone nn 0 st ok [] :: rest).
        { clear - E. cbn [pstep] in E. destruct (panic s || wdone s); [discriminate|]. destruct (mops s nn); [|discriminate]. injection E as <- <- <- <-. eauto. }
        destruct Ei as (st & rest & Ei). rewrite Ei in Ex. destruct m1 as [|i0 m1]; [discriminate Ex|]. cbn [app] in Ex. injection Ex as <- Ex.
        destruct (drun_item _ _ _ _ _ _ Hd) as (z0 & z & z2 & da & db & Z1 & Z2 & Z3).
        destruct (sim_silents _ _ _ _ _ _ _ R Si Z1) as (oes1 & so1 & O1 & F1 & R1 & S1).
        destruct (sim_pmeta _ _ _ _ _ _ _ _ _ _ _ _ _ (rel_good _ _ R1) S1 E Ei Z2) as (so2 & pe & Ea & O2 & S2 & -> & ->).
        pose proof (rel_step _ _ (OOwn (EWMetaDone nn ok)) _ _ _ _ _ R1 I O2 B1) as R2.
        assert (m1 = []) by (rewrite Ea in Ex; destruct pe as [[[? ?] ?]|]; destruct m1 as [|i [|j m1]]; try discriminate Ex; reflexivity). subst m1.
        destruct (sim_silents _ _ _ _ _ _ _ R2 S2 Z3) as (oes3 & so3 & O3 & F3 & R3 & S3).
        rewrite Ea in Ex. destruct pe as [[[n0 st0] r0]|]; [|discriminate Ex]. cbn in Ex. injection Ex as <- <- <- <- _.
        intros i k. exact (pe_free _ _ _ _ _ _ _ R3 S3 i k).
Qed.

Theorem respects_meta pes s g b m : (forall e, In e pes -> pevent_fits e) -> prun c (oinit c h) pes = Some (s, g, b, m) ->
  behaves (target c) base b -> respects msize mbase m.
Proof.
  intros Fi Hp (dB & desB & HB) t1 n q id r t2 Em (d1 & des & Hd) i Hw.
  destruct (proj1 (in_flight _ _ _ _ (ex_intro _ des Hd) i q id) Hw) as (k & Ek).
  refine (meta_respects pes _ _ _ _ _ _ _ _ _ _ _ _ _ _ _ _ _ _ _ sim_start Fi Hp HB Em Hd i k Ek).
  eexists _, _, _, _, _. apply LayerProofs.related_init.
Qed.

End Layer.
