(** Every layer over a write-through device is a write-through device. *)
From Coq Require Import List Arith NArith Bool Lia ZifyBool ZifyNat.
Import ListNotations.
From Verif Require Import Base BaseFacts DiskSpec TraceSpec TraceFacts LayerSpec WtSpec WtProofs KeptFacts AheadFacts.
From Verif Require LayerIds SyncModel SyncSpec SyncProofs UringDiskModel UringDiskSpec UringDiskProofs CryptOpenModel CryptOpenSpec CryptProofs CryptOpenProofs
  LazyState LazyModel LazySpec LazyInv LazySim LazyReach LazyRun LazyProofs LayerModel LayerProofs GuestModel GuestSpec GuestProofs
  UblkDiskModel UblkDiskSpec UblkDiskProofs LayerProps SetupModel SetupSpec StackModel StackSpec StackProofs.

(** ** Files opened for synchronous writes *)
Section Files.
Context {V : Type}.
Variable us : N.
Variable per : nat.
Hypothesis units_ok : (us * N.of_nat per = 512)%N.
Variable readonly : bool.
Variable nsec : nat.
Hypothesis size_ok : (N.of_nat nsec < 2 ^ 55)%N.
Notation size := (nsec * per).

Lemma ren_id (t : list (titem V)) : flat_map (SyncProofs.ren false) t = t.
Proof. induction t as [|a t IH]; cbn; [auto|]. now rewrite IH. Qed.

Lemma cells_kept (d : disk V) (cells : nat -> list (SyncModel.cell V)) sv :
  (forall x, exists rest, d_hist d x = map (SyncProofs.entry false) (cells x) ++ rest) -> (forall x, cells x <> []) ->
  (forall x, SyncProofs.lastonly (fun e => d_done d (SyncProofs.ser false (SyncModel.ce_by e)) = true) (cells x)) ->
  (forall x, sv x < length (cells x)) -> kept_at d sv.
Proof.
  intros H N L S x. destruct (H x) as (rest & E). rewrite E.
  destruct (SyncProofs.trim_prefix (SyncProofs.entry false) (d_done d) (cells x) rest (L x) (N x)) as (rest' & T).
  apply crashed_prefix. rewrite T, app_length, map_length. specialize (S x). lia.
Qed.

Lemma uring_kept entries (es : list (UringDiskModel.fevent V)) : forall s d s' tr, UringDiskProofs.sim per true nsec false s d ->
  UringDiskSpec.calls_ok us per readonly true entries nsec s es -> UringDiskSpec.no_short_transfers es ->
  UringDiskModel.frun us per readonly true entries s es = Some (s', tr) ->
  exists d', kept_run size d tr d' /\ UringDiskProofs.sim per true nsec false s' d'.
Proof.
  induction es as [|e es IH]; intros s d s' tr I C Ns H; cbn [UringDiskModel.frun] in H.
  - injection H as <- <-. exists d. split; [apply kept_nil|auto].
  - cbn [UringDiskSpec.calls_ok] in C. destruct C as (C1 & C2).
    destruct (UringDiskModel.fstep us per readonly true entries s e) as [[s1 t1]|] eqn:E; [|discriminate].
    destruct (UringDiskModel.frun us per readonly true entries s1 es) as [[s2 t2]|] eqn:E2; [|discriminate]. injection H as <- <-.
    assert (One : exists d1, kept_run size d t1 d1 /\ UringDiskProofs.sim per true nsec false s1 d1).
    { assert (X : (exists sv, e = UringDiskModel.FCrash sv) \/ ~ In TCrash t1).
      { destruct e as [b data|n q id soff cnt b|n q id soff cnt b|n q id|q k|n i|n r|q|sv]; eauto; right; cbn [UringDiskModel.fstep] in E;
          repeat match type of E with
          | context [if ?b then _ else _] => destruct b; try discriminate E
          | (match ?b with _ => _ end) = _ => destruct b; try discriminate E
          end; try (injection E as <- <-; intros Y; cbn in Y; intuition discriminate).
        match type of E with Some (UringDiskModel.report_all ?l0 ?s0) = _ => revert E; generalize l0 s0 end. clear.
        intros l. revert s1 t1. induction l as [|n l IH]; intros s1 t1 s E; cbn [UringDiskModel.report_all] in E; [injection E as <- <-; intros []|].
        destruct (UringDiskModel.report_all l _) as [sa ta] eqn:Er. injection E as <- <-. intros Y. apply in_app_or in Y as [Y|Y].
        - unfold UringDiskModel.report in Y. destruct (UringDiskModel.f_op s n) as [[q0 id w ph]|]; [|destruct Y].
          destruct ph as [| |[]]; destruct w; cbn in Y; intuition discriminate.
        - revert Y. exact (IH _ _ _ (f_equal Some Er)). }
      destruct X as [(sv & ->)|X].
      - cbn [UringDiskModel.fstep] in E. injection E as <- <-.
        destruct (UringDiskProofs.sim_crash us per units_ok true nsec size_ok false ltac:(discriminate) s d sv I) as (sv' & d' & L & R & I').
        exists d'. split; [|exact I']. cbn in R. injection R as <-. apply kept_crash.
        apply (cells_kept d (UringDiskModel.f_cell s)); auto; try apply I. reflexivity.
      - destruct (UringDiskProofs.sim_step us per units_ok readonly true entries nsec size_ok false ltac:(discriminate) s d e s1 t1 I C1
          ltac:(intros n k ->; apply (Ns n k); now left) E) as (es1 & d1 & R1 & I1).
        rewrite ren_id in R1. exists d1. split; auto. eapply kept_quiet; eauto. }
    destruct One as (d1 & K1 & I1).
    destruct (IH _ _ _ _ I1 C2 ltac:(intros n k F; apply (Ns n k); now right) E2) as (d2 & K2 & I2).
    exists d2. split; auto. eapply kept_app; eauto.
Qed.

Lemma sync_kept (es : list (SyncModel.sevent V)) : forall s d s' tr, SyncProofs.sim true per nsec false s d ->
  Forall (SyncSpec.call_in_range per nsec) es -> SyncModel.srun us per readonly true s es = Some (s', tr) ->
  exists d', kept_run size d tr d' /\ SyncProofs.sim true per nsec false s' d'.
Proof.
  induction es as [|e es IH]; intros s d s' tr I C H; cbn [SyncModel.srun] in H.
  - injection H as <- <-. exists d. split; [apply kept_nil|auto].
  - inversion C as [|? ? C1 C2]; subst.
    destruct (SyncModel.sstep us per readonly true s e) as [[s1 t1]|] eqn:E; [|discriminate].
    destruct (SyncModel.srun us per readonly true s1 es) as [[s2 t2]|] eqn:E2; [|discriminate]. injection H as <- <-.
    assert (One : exists d1, kept_run size d t1 d1 /\ SyncProofs.sim true per nsec false s1 d1).
    { assert (X : (exists sv, e = SyncModel.SCrash sv) \/ ~ In TCrash t1).
      { unfold SyncModel.sstep in E. rewrite (SyncProofs.sm_panic _ _ _ _ _ _ I) in E.
        destruct e as [n q id soff cnt b|n q id soff cnt b|n q id|q k|q o|q|sv]; eauto; right;
          repeat match type of E with
          | context [if ?b then _ else _] => destruct b; try discriminate E
          | (match ?b with _ => _ end) = _ => destruct b; try discriminate E
          end; try (injection E as <- <-; intros Y; cbn in Y; intuition discriminate).
        injection E as <- <-. intros Y. apply in_map_iff in Y as ((((n0 & id0) & ok0) & data0) & Y & _). discriminate Y. }
      destruct X as [(sv & ->)|X].
      - unfold SyncModel.sstep in E. rewrite (SyncProofs.sm_panic _ _ _ _ _ _ I) in E. injection E as <- <-.
        destruct (SyncProofs.sim_crash true us per units_ok nsec size_ok false ltac:(discriminate) s d sv I) as (sv' & d' & L & R & I').
        exists d'. split; [|exact I']. cbn in R. injection R as <-. apply kept_crash.
        apply (cells_kept d (SyncModel.s_cell s)); auto; try apply I. reflexivity.
      - destruct (SyncProofs.sim_step readonly true us per units_ok nsec size_ok false ltac:(discriminate) s d e s1 t1 I C1 E) as (es1 & d1 & R1 & I1).
        rewrite ren_id in R1. exists d1. split; auto. eapply kept_quiet; eauto. }
    destruct One as (d1 & K1 & I1).
    destruct (IH _ _ _ _ I1 C2 E2) as (d2 & K2 & I2).
    exists d2. split; auto. eapply kept_app; eauto.
Qed.
End Files.

(** ** The encrypting device *)
Section Crypt.
Context {V : Type}.
Variable enc dec : nat -> V -> V.
Variable size : nat.
Hypothesis dec_enc : forall x v, dec x (enc x v) = v.
Notation krun := (@CryptOpenModel.krun V enc dec).
Notation kstep := (@CryptOpenModel.kstep V enc dec).
Notation inv := (CryptOpenProofs.inv dec).

Lemma dec_kept (d p : disk V) sv : CryptProofs.dsim dec d p -> kept_at d sv -> kept_at p sv.
Proof.
  intros S K x. unfold kept. rewrite (CryptProofs.ds_hist _ _ _ S).
  rewrite (CryptProofs.trim_dec dec x (d_done d)) by apply S. rewrite !CryptProofs.crashed_dec. f_equal. apply K.
Qed.

Lemma crypt_no_crash s e s' g b : kstep s e = Some (s', g, b) -> e = CryptOpenModel.KCrash \/ (~ In TCrash g /\ ~ In TCrash b).
Proof.
  intros H. destruct e as [bb data|n q id off cnt bb|n q id off cnt bb|n q id|n ok data|]; auto; right; cbn [CryptOpenModel.kstep] in H.
  - injection H as <- <- <-. cbn. tauto.
  - injection H as <- <- <-. cbn. intuition discriminate.
  - repeat match type of H with (match ?b with _ => _ end) = _ => destruct b; try discriminate H end;
      injection H as <- <- <-; cbn; intuition discriminate.
  - injection H as <- <- <-. cbn. intuition discriminate.
  - destruct (CryptOpenModel.k_ops s n) as [[q id w]|]; [|discriminate]. cbv zeta in H. injection H as <- <- <-. cbn. intuition discriminate.
Qed.

Lemma crypt_kept stored : forall es s g b d,
  krun CryptOpenModel.new_kdev es = Some (s, g, b) -> CryptOpenSpec.all_buffers_ok enc dec CryptOpenModel.new_kdev es ->
  respects size (fun x => dec x (stored x)) g -> kept_run size (new_disk stored) b d ->
  exists p, kept_run size (new_disk (fun x => dec x (stored x))) g p /\ inv s d p.
Proof.
  induction es as [|e es IH] using rev_ind; intros s g b d R Hb Hr Hd.
  - cbn in R. injection R as <- <- <-. destruct Hd as (des & Hd & _).
    destruct (CryptOpenProofs.quiet_run enc dec size dec_enc des (new_disk stored) (new_disk (fun x => dec x (stored x))) d) as (p & P & S & F).
    + split; cbn; auto.
    + exact Hd.
    + exists p. split; [eapply kept_quiet; [exact P|intros []]|]. split; [apply CryptOpenProofs.kok_init|]. split; [exact S|]. intros n. apply F. exact I.
  - rewrite CryptOpenProofs.krun_snoc in R. destruct (krun CryptOpenModel.new_kdev es) as [[[s1 g1] b1]|] eqn:E1; [|discriminate R].
    destruct (kstep s1 e) as [[[s2 g2] b2]|] eqn:E2; [|discriminate R]. injection R as <- <- <-.
    destruct (CryptOpenProofs.bufs_snoc _ _ _ _ _ _ _ _ E1 Hb) as [Hb1 Hb2].
    destruct (kept_cut _ _ _ _ _ Hd) as (d1 & D1 & D2).
    destruct (IH s1 g1 b1 d1 eq_refl Hb1 (LayerIds.respects_prefix _ _ _ _ Hr) D1) as (p1 & P1 & J1).
    assert (Next : exists p2, kept_run size p1 g2 p2 /\ inv s2 d p2).
    { destruct (crypt_no_crash _ _ _ _ _ E2) as [->|(N1 & N2)].
      - cbn in E2. injection E2 as <- <- <-. destruct J1 as (K & S & F).
        destruct (kept_at_crash _ _ _ D2) as (e0 & e2 & da & sv & R1 & Ka & R2).
        destruct (CryptOpenProofs.quiet_run enc dec size dec_enc _ _ _ _ S R1) as (pa & Q1 & S1 & F1).
        destruct (CryptProofs.dsim_step enc dec size dec_enc da pa (DCrash sv) (after_crash da sv) [TCrash] S1 eq_refl) as (pb & Q2 & S2); [discriminate|].
        destruct (CryptOpenProofs.quiet_run enc dec size dec_enc _ _ _ _ S2 R2) as (pc & Q3 & S3 & F3).
        exists pc. split.
        + apply (kept_app size p1 [] pa [TCrash]); [eapply kept_quiet; [exact Q1|intros []]|].
          apply (kept_app size pa [TCrash] pb []); [|eapply kept_quiet; [exact Q3|intros []]].
          cbn in Q2. injection Q2 as <-. apply kept_crash. eapply dec_kept; eauto.
        + split; [apply CryptOpenProofs.kok_init|]. split; [exact S3|]. intros m. apply F3. exact I.
      - destruct (kept_drun _ _ _ _ D1) as (es1 & R1). destruct (kept_drun _ _ _ _ D2) as (es2 & R2). destruct (kept_drun _ _ _ _ P1) as (es3 & R3).
        destruct (CryptOpenProofs.sim_step enc dec size dec_enc (fun x => dec x (stored x)) g1 s1 d1 p1 e s2 g2 b2 es2 d) as (des' & p2 & P2 & J2); eauto.
        { exists es3. exact R3. }
        exists p2. split; [eapply kept_quiet; eauto|exact J2]. }
    destruct Next as (p2 & P2 & J2). exists p2. split; [|exact J2]. eapply kept_app; eauto.
Qed.
End Crypt.

(** ** The lazy device *)
Section Lazy.
Context {V : Type}.
Import LazyState LazyModel LazySpec LazyInv LazySim LazyReach LazyRun LazyProofs LayerModel LayerProofs.
Variable c : cfg V.
Variable base : nat -> V.
Variable h : nat -> N.
Hypothesis WC : well_configured c h.
Notation reached := (reached c base h).
Notation history := (history c base h).
Notation Related := (Related c base h).
Notation wt := (base_write_through c base h).

Lemma wt_snoc es e : wt es -> (forall pb pm, e = ECrash pb pm -> let s := reached es in forall x, x < target c -> kept (bdone s) (bh s x) (pb x)) ->
  wt (es ++ [e]).
Proof.
  intros W H es1 pb pm es2 E. destruct es2 as [|a es2] using rev_ind.
  - apply app_inj_tail in E as [-> ->]. now apply (H pb pm).
  - clear IHes2. change (ECrash pb pm :: es2 ++ [a]) with ((ECrash pb pm :: es2) ++ [a]) in E. rewrite app_assoc in E.
    apply app_inj_tail in E as [E _]. exact (W _ _ _ _ E).
Qed.

Lemma crash_in_history es : (exists pb pm, In (ECrash pb pm) es) -> In TCrash (history es).
Proof.
  induction es as [|e es IH] using rev_ind; intros (pb & pm & H); [destruct H|].
  rewrite snoc_hist_step. apply in_or_app. apply in_app_or in H as [H|[->|[]]]; [left; eauto|right]. cbn. auto.
Qed.

Lemma wt_quiet es' : forall es g, wt es -> history (es ++ es') = history es ++ g -> ~ In TCrash g -> wt (es ++ es').
Proof.
  induction es' as [|e es' IH] using rev_ind; intros es g W H N; [now rewrite app_nil_r|].
  rewrite app_assoc in *. rewrite snoc_hist_step in H.
  assert (X : exists g1, history (es ++ es') = history es ++ g1).
  { rewrite history_app. eauto. }
  destruct X as (g1 & X). rewrite X, <- app_assoc in H. apply app_inv_head in H. subst g. apply wt_snoc.
  - apply (IH es g1); auto. intros Y. apply N. apply in_or_app. auto.
  - intros pb pm ->. exfalso. apply N. apply in_or_app. right. now left.
Qed.

Lemma open_crash s e s' g b : ostep c s e = Some (s', g, b) -> (exists pm, e = OCrash pm) \/ ~ In TCrash g.
Proof.
  destruct e as [e|n ok data|bb i v|pm]; eauto; intros H; right; cbn [ostep] in H.
  - destruct (own s e) eqn:Ho; [|discriminate]. destruct (step c s e) as [s1 t] eqn:E. injection H as <- <- <-.
    assert (X : is_crash e = false) by (destruct e; auto; discriminate Ho).
    pose proof (no_crash_step c s e X) as Y. now rewrite E in Y.
  - destruct (panic s); [discriminate|]. destruct (ops s n) as [[o [|] k]|]; try discriminate.
    destruct o; [injection H as <- <- <-; cbn; intuition discriminate|]. destruct (wdone s); [discriminate|]. injection H as <- <- <-. intros [].
  - injection H as <- <- <-. intros [].
Qed.

Lemma lazy_open oes : forall so es d O B D F so' g b d1,
  Related None so es d O B D F -> (forall e, In e oes -> event_fits c e) -> orun c so oes = Some (so', g, b) ->
  wt es -> kept_run (target c) d b d1 ->
  exists es' O' B' D' F', Related None so' (es ++ es') d1 O' B' D' F' /\ history (es ++ es') = history es ++ g /\ wt (es ++ es').
Proof.
  induction oes as [|e oes IH]; intros so es d O B D F so' g b d1 R Fe Hs W Hr; cbn [orun] in Hs.
  - injection Hs as <- <- <-. destruct Hr as (des & Hr & _). destruct (sim_silents _ _ _ WC _ _ _ _ _ _ _ _ _ _ R Hr) as (es1 & O1 & B1 & Q1 & H1).
    exists es1, O1, B1, D, F. rewrite H1, app_nil_r. split; auto. split; auto. apply (wt_quiet es1 es []); auto. now rewrite app_nil_r.
  - destruct (ostep c so e) as [[[s1 t1] b1]|] eqn:E1; [|discriminate Hs].
    destruct (orun c s1 oes) as [[[s2 t2] b2]|] eqn:E2; [|discriminate Hs]. injection Hs as <- <- <-.
    destruct (kept_cut _ _ _ _ _ Hr) as (dm & D1 & D2).
    assert (One : exists es' O' B' D' F', Related None s1 (es ++ es') dm O' B' D' F' /\ history (es ++ es') = history es ++ t1 /\ wt (es ++ es')).
    { destruct (open_crash _ _ _ _ _ E1) as [(pm & ->)|N].
      - cbn [ostep] in E1. injection E1 as <- <- <-.
        destruct (kept_at_crash _ _ _ D1) as (e0 & e2 & da & sv & R1 & Ka & R3).
        destruct (sim_silents _ _ _ WC _ _ _ _ _ _ _ _ _ _ R R1) as (es1 & O1 & B1 & Q1 & H1).
        assert (W1 : wt (es ++ es1)) by (apply (wt_quiet es1 es []); auto; now rewrite app_nil_r).
        destruct Q1 as [E A [Lh Ld Lo Lp] Fi]. set (ec := @ECrash V sv pm).
        assert (R4 : Related None (crash c (fun _ => 0) pm so) ((es ++ es1) ++ [ec]) (after_crash da sv)
          (fun _ => None) (fun x => crashed (B1 x) (sv x)) D (fun _ _ => blank c)).
        { split.
          - rewrite snoc_ind_step, E. reflexivity.
          - intros m. exact I.
          - split; cbn [after_crash d_hist d_done d_ops]; try discriminate; [intros x; now rewrite Lh|exact Ld|intros m _; exact eq_refl].
          - apply fit_snoc; [exact Fi|exact Logic.I]. }
        assert (W2 : wt ((es ++ es1) ++ [ec])).
        { apply wt_snoc; auto. intros pb pm' X. injection X as <- <-. cbv zeta. intros x Hx. rewrite E.
          specialize (Ka x). unfold kept in *. cbn. rewrite Lh, Ka. f_equal. apply trim_ext. intros n. symmetry. apply Ld. }
        destruct (sim_silents _ _ _ WC _ _ _ _ _ _ _ _ _ _ R4 R3) as (es2 & O2 & B2 & Q2 & H2).
        assert (W3 : wt (((es ++ es1) ++ [ec]) ++ es2)) by (apply (wt_quiet es2 _ []); auto; now rewrite app_nil_r).
        exists (es1 ++ [ec] ++ es2), O2, B2, D, (fun _ _ => blank c). rewrite !app_assoc in *. split; auto. split; auto.
        rewrite H2, snoc_hist_step, H1. reflexivity.
      - destruct (kept_drun _ _ _ _ D1) as (des & R1).
        destruct (sim_event _ _ _ WC _ _ _ _ _ _ _ _ _ _ _ _ _ R (Fe e (or_introl eq_refl)) E1 R1) as (es1 & O1 & B1 & DD1 & F1 & Q1 & H1).
        exists es1, O1, B1, DD1, F1. split; auto. split; auto. eapply wt_quiet; eauto. }
    destruct One as (es1 & O1 & B1 & DD1 & F1 & R1 & H1 & W1).
    destruct (IH _ _ _ _ _ _ _ _ _ _ _ R1 (fun e0 X => Fe e0 (or_intror X)) E2 W1 D2) as (es2 & O2 & B2 & DD2 & F2 & R2 & H2 & W2).
    exists (es1 ++ es2), O2, B2, DD2, F2. rewrite app_assoc. split; auto. split; auto. rewrite H2, H1. now rewrite app_assoc.
Qed.

Lemma lazy_closed es : wt es ->
  exists d, Sim c (reached es) d /\ kept_run (target c) (new_disk (initial_contents c base h)) (history es) d.
Proof.
  induction es as [|e es IH] using rev_ind; intros W.
  - exists (new_disk (initial_contents c base h)). split; [apply sim_init|apply kept_nil].
  - destruct IH as (d & S & K).
    { intros es1 pb pm es2 E. apply (W es1 pb pm (es2 ++ [e])). rewrite E, <- app_assoc. reflexivity. }
    pose proof (k_inv _ _ _ (ok_reached c base h WC es)) as HI.
    rewrite snoc_ind_step, snoc_hist_step.
    destruct (is_crash e) eqn:Ec.
    + destruct e; try discriminate Ec. cbn [step fst snd].
      destruct (wt_crash c base h (reached es) d pickb pickm HI S) as (sv & Kv & S').
      { apply (W es pickb pickm []). reflexivity. }
      eexists. split; [exact S'|]. eapply kept_app; [exact K|]. now apply kept_crash.
    + destruct (sim_step c (hs h) (wf_of c h WC) (reached es) d e HI S) as (d1 & (ev1 & R1) & S1).
      exists d1. split; auto. eapply kept_app; [exact K|]. eapply kept_quiet; [exact R1|]. now apply no_crash_step.
Qed.

Theorem lazy_kept oes so g b d : (forall e, In e oes -> event_fits c e) ->
  orun c (oinit c h) oes = Some (so, g, b) -> kept_run (target c) (new_disk base) b d ->
  exists d', kept_run (target c) (new_disk (initial_contents c base h)) g d' /\
    forall x, x < target c -> cur (d_hist d' x) = if released (shf so (x / ssc c)) then cur (d_hist d x) else Some (image c x).
Proof.
  intros Fe Hs Hr.
  assert (W0 : wt []) by (intros es1 pb pm es2 E; destruct es1; discriminate E).
  destruct (lazy_open _ _ _ _ _ _ _ _ _ _ _ _ (related_init c base h) Fe Hs W0 Hr) as (es & O & B & D & F & R & H & W).
  cbn [app] in *. destruct (lazy_closed es W) as (d' & S & K). rewrite H in K. exists d'. split; [exact K|].
  intros x Hx. rewrite (LazyProofs.sim_logical c _ _ S x Hx). unfold logical. rewrite (r_state _ _ _ _ _ _ _ _ _ _ _ R). cbn.
  now rewrite (lk_hist _ _ _ _ _ _ (r_link _ _ _ _ _ _ _ _ _ _ _ R) x).
Qed.
End Lazy.

(** ** A guest on a vhost backend *)
Section Guest.
Import GuestModel GuestSpec.
Variable valid : N -> bool.
Variable qsize : N.
Variable did : list N.
Variable nslots : nat.
Variable bufsize : N.
Variable size : nat.
Notation Inv := (GuestProofs.Inv valid qsize size).
Notation gstep := (gstep valid qsize did nslots bufsize).

Lemma guest_no_crash g e g' P P' w : watch valid g e g' P P' w -> (exists m, e = GCrash m) \/ ~ In TCrash w.
Proof. intros W. destruct W; eauto; right; cbn; intuition discriminate. Qed.

Lemma guest_event g P d d' e g' t P' w d1 :
  Inv g P d d' -> driver_ok valid qsize size g P e ->
  gstep g e = Ok (g', t) -> watch valid g e g' P P' w ->
  kept_run size d t d1 -> exists d1', kept_run size d' w d1' /\ Inv g' P' d1 d1'.
Proof.
  intros I D G W K. destruct (guest_no_crash _ _ _ _ _ _ W) as [(m & ->)|N].
  - inversion W; subst; try discriminate. cbn in G. injection G as <- <-.
    destruct (kept_at_crash _ _ _ K) as (e0 & e2 & da & sv & R1 & Ka & R3).
    destruct (GuestProofs.sim_silents _ _ did _ _ _ _ _ _ _ I R1) as (da' & S1 & I1).
    assert (I2 : Inv (ginit nslots bufsize m) [] (after_crash da sv) (after_crash da sv)).
    { apply GuestProofs.init_inv. intros x he Hx Hin. unfold crashed in Hin.
      pose proof (GuestProofs.i_512 _ _ _ _ _ _ _ I1 x) as H5.
      destruct (nth_error (d_hist da x) (sv x)) as [y|] eqn:Ey.
      - destruct Hin as [<-|[]]. cbn [snd]. apply (H5 y); auto. eapply nth_error_In; eauto.
      - destruct (d_hist da x) as [|y l]; [destruct Hin|]. destruct Hin as [<-|[]]. cbn [snd]. apply (H5 y); auto. left; auto. }
    destruct (GuestProofs.sim_silents _ _ did _ _ _ _ _ _ _ I2 R3) as (d1' & S3 & I3).
    exists d1'. split; auto. apply (kept_app size d' [] da' [TCrash]); [eapply kept_quiet; [exact S1|intros []]|].
    apply (kept_app size da' [TCrash] (after_crash da sv) []); [|eapply kept_quiet; [exact S3|intros []]].
    replace (after_crash da sv) with (after_crash da' sv).
    + apply kept_crash. intros x. rewrite (GuestProofs.i_hist _ _ _ _ _ _ _ I1), (GuestProofs.i_done _ _ _ _ _ _ _ I1). apply Ka.
    + unfold after_crash.
      rewrite (GuestProofs.i_used _ _ _ _ _ _ _ I1), (GuestProofs.i_hist _ _ _ _ _ _ _ I1), (GuestProofs.i_done _ _ _ _ _ _ _ I1). reflexivity.
  - destruct (kept_drun _ _ _ _ K) as (es & R).
    destruct (GuestProofs.sim_event _ _ _ _ _ _ _ _ _ _ _ _ _ _ _ _ _ I D G W R) as (es' & d1' & R' & I').
    exists d1'. split; auto. eapply kept_quiet; eauto.
Qed.

Lemma guest_kept : forall m0 contents g P tr gtr,
  (forall x, (x < size)%nat -> N.of_nat (length (contents x)) = 512%N) ->
  session valid qsize did nslots bufsize size m0 g P tr gtr ->
  forall d, kept_run size (new_disk contents) tr d ->
  exists d', kept_run size (new_disk contents) gtr d' /\ Inv g P d d'.
Proof.
  intros * Hc S. induction S as [|g P tr gtr e g' t P' w S IH D G W]; intros d K.
  - assert (I : Inv (ginit nslots bufsize m0) [] (new_disk contents) (new_disk contents)).
    { apply GuestProofs.init_inv. intros x e Hx [<-|[]]. apply Hc. exact Hx. }
    destruct K as (es & R & _). destruct (GuestProofs.sim_silents _ _ did _ _ _ _ _ _ _ I R) as (d' & S1 & I1).
    exists d'. split; auto. eapply kept_quiet; [exact S1|intros []].
  - destruct (kept_cut _ _ _ _ _ K) as (dm & K1 & K2). destruct (IH _ K1) as (dm' & Q1 & I1).
    destruct (guest_event _ _ _ _ _ _ _ _ _ _ I1 D G W K2) as (d' & Q2 & I2).
    exists d'. split; auto. eapply kept_app; eauto.
Qed.
End Guest.

(** ** The kernel driver on a ublk backend *)
Section Ublk.
Import UblkDiskModel UblkDiskSpec.
Variable max : N.
Variable depth size : nat.
Hypothesis max_ok : (max < 2 ^ 31)%N.
Notation Inv := (UblkDiskProofs.Inv max depth size).

Lemma newer_kept {A} done done' (l l' : list (nat * A)) i : l <> [] -> (exists old, l' = l ++ old) -> (forall n, done' n = done n) ->
  kept done l i -> let j := if i <? length (trim done l) then i else 0 in
  kept done' l' j /\ crashed l' j = crashed l i /\ crashed l i <> [].
Proof.
  intros N (old & ->) D K. cbv zeta.
  assert (D' : forall m : list (nat * A), trim done' m = trim done m).
  { induction m as [|e m IH]; cbn; auto. now rewrite D, IH. }
  unfold kept in *. rewrite K.
  assert (T : trim done l <> []) by (destruct l as [|e l]; [congruence|]; cbn; destruct (done (fst e)); discriminate).
  assert (Q : exists r, trim done (l ++ old) = trim done l ++ r).
  { clear. induction l as [|e l (r & IH)]; cbn; [eauto|]. destruct (done (fst e)); [now exists []|]. exists r. cbn. now rewrite IH. }
  destruct Q as (r & Q). destruct (trim_prefix done l) as (r' & P).
  assert (F : forall r0, crashed (trim done l ++ r0) (if i <? length (trim done l) then i else 0) = crashed (trim done l) i).
  { intros r0. unfold crashed. destruct (Nat.ltb_spec i (length (trim done l))) as [L|L].
    - rewrite nth_error_app1 by auto. destruct (nth_error (trim done l) i) eqn:E; auto. apply nth_error_None in E. lia.
    - apply nth_error_None in L. rewrite L. destruct (trim done l); [congruence|]. reflexivity. }
  assert (G : crashed (l ++ old) (if i <? length (trim done l) then i else 0) = crashed (trim done l) i).
  { rewrite P at 1. rewrite <- app_assoc. apply F. }
  rewrite D', Q, G, F. repeat split. unfold crashed. destruct (nth_error (trim done l) i); [discriminate|]. destruct (trim done l); [congruence|discriminate].
Qed.

Lemma kept_choice (d d' : disk GuestModel.sector) E sv : ahead E d d' -> kept_at d sv ->
  exists sv', kept_at d' sv' /\ ahead (fun _ => None) (after_crash d sv) (after_crash d' sv').
Proof.
  intros A K.
  exists (fun x => if sv x <? length (trim (d_done d) (d_hist d x)) then sv x else 0).
  assert (H : forall x, let j := (if sv x <? length (trim (d_done d) (d_hist d x)) then sv x else 0) in
    kept (d_done d') (d_hist d' x) j /\ crashed (d_hist d' x) j = crashed (d_hist d x) (sv x) /\ crashed (d_hist d x) (sv x) <> []).
  { intros x. destruct (a_hist _ _ _ A x) as (N & O). apply newer_kept; auto. intros n. apply A. }
  split; [intros x; apply (H x)|]. split; cbn [after_crash d_used d_done d_hist d_ops]; try apply A; [|intros n; reflexivity].
  intros x. destruct (H x) as (_ & -> & Hn). now apply newer_refl.
Qed.

Lemma ublk_kept : forall contents u P tr ktr,
  (forall x, (x < size)%nat -> N.of_nat (length (contents x)) = 512%N) ->
  session max depth size u P tr ktr ->
  forall d, kept_run size (new_disk contents) tr d ->
  exists d' E, kept_run size (new_disk contents) ktr d' /\ Inv u P d d' E.
Proof.
  intros * Hc S. induction S as [|u P tr ktr e u' t P' w S IH D G W]; intros d K.
  - assert (I : Inv (uinit max depth) [] (new_disk contents) (new_disk contents) (fun _ => None)).
    { apply UblkDiskProofs.init_inv; auto; [|apply ahead_init]. split; [|discriminate]. intros x e Hx [<-|[]]. apply Hc, Hx. }
    destruct K as (es & R & _). destruct (UblkDiskProofs.inv_silents _ _ _ _ _ _ _ _ _ _ I R) as (d' & R' & I').
    exists d', (fun _ => None). split; auto. eapply kept_quiet; [exact R'|intros []].
  - destruct (kept_cut _ _ _ _ _ K) as (dm & K1 & K2). destruct (IH _ K1) as (dm' & E & Q1 & I1).
    assert (C : e = UCrash \/ e <> UCrash) by (destruct e; auto; right; discriminate). destruct C as [->|Ne].
    { inversion W; subst; try discriminate. cbn in G. injection G as <- <-.
      destruct (kept_at_crash _ _ _ K2) as (e0 & e2 & da & sv & R1 & Ka & R3).
      destruct (UblkDiskProofs.inv_silents _ _ _ _ _ _ _ _ _ _ I1 R1) as (da' & S1 & I2).
      destruct (kept_choice da da' E sv (UblkDiskProofs.v_ahead _ _ _ _ _ _ _ _ I2) Ka) as (sv' & Ka' & A').
      assert (I3 : Inv (uinit max depth) [] (after_crash da sv) (after_crash da' sv') (fun _ => None)).
      { apply UblkDiskProofs.init_inv; auto. eapply (sized_step size _ da (DCrash sv)); [apply I2|reflexivity|].
        intros n0 q0 id0 off dat [X|[]]. discriminate X. }
      destruct (UblkDiskProofs.inv_silents _ _ _ _ _ _ _ _ _ _ I3 R3) as (d3' & S3 & I4).
      exists d3', (fun _ => None). split; auto. eapply kept_app; [exact Q1|].
      apply (kept_app size dm' [] da' [TCrash]); [eapply kept_quiet; [exact S1|intros []]|].
      apply (kept_app size da' [TCrash] (after_crash da' sv') []); [now apply kept_crash|eapply kept_quiet; [exact S3|intros []]]. }
    assert (Nw : ~ In TCrash w).
    { assert (Sn : forall p b t0, sent p b t0 -> ~ In TCrash t0) by (intros p b t0 X; destruct X; cbn; intuition discriminate).
      assert (Gn : forall p rs b t0, got p rs b t0 -> ~ In TCrash t0) by (intros p rs b t0 X; destruct X; cbn; intuition discriminate).
      destruct W; eauto; try congruence. rewrite in_app_iff. intros [X|X]; [eapply Sn|eapply Gn]; eauto. }
    destruct (kept_drun _ _ _ _ K2) as (e2 & R2).
    assert (Fin : forall d1 d2 d1', Inv u P d1 d1' E -> UblkDiskProofs.moves size d1 t d2 -> kept_run size (new_disk contents) ktr d1' ->
       exists d2' E2, kept_run size (new_disk contents) (ktr ++ w) d2' /\ Inv u' P' d2 d2' E2).
    { intros d1 d2 d1' Ix M Kx. destruct (kept_drun _ _ _ _ Kx) as (esx & Rx). destruct (UblkDiskProofs.fresh_facts max size max_ok _ _ _ _ Rx) as [F1 F2].
      assert (Mr : exists dx, UblkDiskProofs.moves size d1 (UblkDiskProofs.reported e) dx).
      { destruct e; cbn [UblkDiskProofs.reported]; try (exists d1; left; now auto). cbn [ustep] in G.
        destruct (UblkModel.poll_all _ _); cbn [bindr] in G; try discriminate G. injection G as _ <-. eauto. }
      destruct Mr as (dx & Mr).
      destruct (UblkDiskProofs.step_any max depth size max_ok _ _ _ _ _ _ _ _ Ix D Mr F1 F2) as (u2 & t2 & P2 & w2 & G2 & W2 & Kk).
      rewrite G in G2. injection G2 as <- <-.
      destruct (UblkDiskProofs.watch_unique _ _ _ _ _ _ _ _ (UblkDiskProofs.v_keys _ _ _ _ _ _ _ _ Ix) W W2) as [<- <-].
      destruct (Kk _ M) as (es2 & d2' & E2 & R3 & I3). exists d2', E2. split; auto. eapply kept_app; [exact Kx|]. eapply kept_quiet; eauto. }
    destruct (UblkDiskProofs.ustep_short max depth size max_ok _ _ _ _ _ _ _ _ I1 G) as [->|(i & ->)].
    + destruct (UblkDiskProofs.inv_silents _ _ _ _ _ _ _ _ _ _ I1 R2) as (d' & R2' & I2).
      apply (Fin d d d'); auto; [left; auto|].
      pose proof (kept_app _ _ _ _ _ _ Q1 (kept_quiet _ _ _ _ _ R2' (fun X => X))) as X. now rewrite app_nil_r in X.
    + destruct (drun_item _ _ _ _ _ _ R2) as (e0 & ev & e3 & d1 & d2 & A & B & Cc).
      destruct (UblkDiskProofs.inv_silents _ _ _ _ _ _ _ _ _ _ I1 A) as (d1' & A' & I2).
      pose proof (kept_app _ _ _ _ _ _ Q1 (kept_quiet _ _ _ _ _ A' (fun X => X))) as X. rewrite app_nil_r in X.
      destruct (Fin d1 d2 d1' I2) as (d2' & E2 & R3 & I3); auto.
      { right. exists i, ev. auto. }
      destruct (UblkDiskProofs.inv_silents _ _ _ _ _ _ _ _ _ _ I3 Cc) as (d3' & C' & I4).
      exists d3', E2. split; auto. pose proof (kept_app _ _ _ _ _ _ R3 (kept_quiet _ _ _ _ _ C' (fun X => X))) as Y. now rewrite app_nil_r in Y.
Qed.
End Ublk.

(** ** The stack of a backend *)
Section Stack.
Import SyncModel UringDiskModel UringDiskSpec CryptOpenModel CryptOpenSpec LazyModel LazySpec LayerModel SetupSpec StackModel StackSpec StackProofs.
Variable w : world.
Variable xts : list byte -> list byte -> (list byte -> list byte -> list byte) * (list byte -> list byte -> list byte).

Lemma file_kept : forall o n tr fin, o_sync o = true -> serves xts w (DFile o n) tr fin ->
  exists d, kept_run n (new_disk (sector_at w (o_path o))) tr d /\ forall x, cur (d_hist d x) = fin x.
Proof.
  intros o n tr fin Hs H. inversion H as [o' n' es f tr' E B start C Ns R|o' n' es s tr' E B C R|]; subst.
  - rewrite Hs in *.
    destruct (uring_kept 512 1 eq_refl (o_readonly o) n ltac:(lia) (N.to_nat (o_entries o)) es start (new_disk (sector_at w (o_path o))) f tr) as (d & Rd & I); auto.
    { apply (UringDiskProofs.sim_init 512 1 eq_refl); [lia|discriminate]. }
    exists d. rewrite Nat.mul_1_r in Rd. split; [exact Rd|intros x; eapply UringDiskProofs.hist_cur; eauto].
  - rewrite Hs in *.
    destruct (sync_kept 512 1 eq_refl (o_readonly o) n ltac:(lia) es (new_sdev n (sector_at w (o_path o))) (new_disk (sector_at w (o_path o))) s tr) as (d & Rd & I); auto.
    { apply (SyncProofs.sim_init _ 512 1 eq_refl); [lia|discriminate|lia]. }
    exists d. rewrite Nat.mul_1_r in Rd. split; [exact Rd|intros x; eapply SyncProofs.hist_cur; eauto].
Qed.

Lemma serves_kept : forall c ro d g fin, c_through c = true -> is_device w c (c_data c) ro d -> cipher_ok (cipher_of xts c) ->
  serves xts w d g fin -> respects (sector_count d) (data_sector xts w c) g ->
  exists dd, kept_run (sector_count d) (new_disk (data_sector xts w c)) g dd /\ forall x, cur (d_hist dd x) = fin x.
Proof.
  intros c ro d g fin T D K S R. apply (device_cipher w xts) in D as (o & n & (P & _ & _ & _ & _ & Os) & Ed & En & _). subst d. rewrite T in Os.
  unfold data_sector, cipher_of in *. destruct (keys c) as [[k1 k2]|].
  - inversion S as [| |k1' k2' base es s g' b fin' enc dec Kr Kb Sb]; subst. cbn [sector_count] in *.
    cbn [cipher_ok] in K. destruct (file_kept _ _ _ _ Os Sb) as (d & Dd & E). rewrite P in Dd. subst enc dec. destruct (xts k1 k2) as [e dc]. cbn [fst snd] in *.
    destruct (crypt_kept (on_sector e) (on_sector dc) n (on_sector_inv _ _ K) (sector_at w (c_data c)) es s g b d Kr Kb R Dd) as (d' & D' & (_ & J & _)).
    exists d'. split; [exact D'|]. intros x. rewrite (CryptProofs.ds_hist _ _ _ J), CryptProofs.cur_dec, E. reflexivity.
  - cbn [sector_count] in *. destruct (file_kept _ _ _ _ Os S) as (d & Dd & E). rewrite P in Dd. exists d. split; [exact Dd|exact E].
Qed.

Lemma work_kept : forall c l blank g fin, c_through c = true ->
  source_matches w c -> cipher_ok (cipher_of xts c) -> launch w xts c blank = Ok l ->
  (forall k h, l_lazy l = Some (k, h) -> well_configured k h) ->
  at_work xts w l g fin -> respects (sector_count (l_bdev l)) (configured_contents xts w c l) g ->
  exists d, kept_run (sector_count (l_bdev l)) (new_disk (configured_contents xts w c l)) g d /\
    forall x, x < sector_count (l_bdev l) -> cur (d_hist d x) = fin x.
Proof.
  intros c l blank g fin Th SM K H WC A R. unfold launch in H. apply bind_ok in H as ((d & k) & B & H). apply build_ok in B as (data & D & B).
  destruct (c_metadata c) as [p|] eqn:Hp.
  - destruct B as (meta & m & image & M & Lm & -> & I & ->). cbn [fst snd] in H. apply bind_ok in H as (r & Rb & H).
    apply Ok_inj in H. subst l. unfold at_work, configured_contents in *. cbn [l_bdev l_lazy sector_count] in *.
    destruct (snd r) as [kc h] eqn:Er. destruct A as (oes & so & b & fb & Fe & Ro & Sb & Fin).
    specialize (WC kc h eq_refl).
    assert (T : target kc = sector_count data).
    { unfold build_bgworker in Rb. apply bind_ok in Rb as (s & _ & Rb). cbn [b_ssc b_fetched b_metadata b_target b_autofetch] in Rb.
      destruct (_ <? _); [discriminate|]. destruct (_ <? _); [discriminate|]. apply Ok_inj in Rb. subst r. cbn [snd] in Er.
      injection Er as <- <-. reflexivity. }
    rewrite <- T in *. pose proof (LayerProps.C79_lazy_keeps_the_contract _ kc _ h oes so g b WC Fe Ro R) as Rb'.
    rewrite T in Rb'. destruct (serves_kept _ _ _ _ _ Th D K Sb Rb') as (dd & Dd & E). rewrite <- T in Dd.
    destruct (lazy_kept kc _ h WC oes so g b dd (LayerProps.fits kc oes Fe) Ro Dd) as (d' & D' & E').
    exists d'. split; [exact D'|]. intros x Hx. rewrite (E' x Hx), Fin, E. reflexivity.
  - destruct B as (-> & ->). cbn [fst snd] in H. apply Ok_inj in H. subst l. unfold at_work, configured_contents in *. cbn [l_bdev l_lazy] in *.
    assert (A' : serves xts w data g fin).
    { apply (device_cipher w xts) in D as (o & n & _ & -> & _). destruct (keys c) as [[k1 k2]|]; exact A. }
    destruct (serves_kept _ _ _ _ _ Th D K A' R) as (d & Dd & E). eauto.
Qed.
End Stack.
