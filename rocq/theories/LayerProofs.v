(** Proofs about the lazy device over an unknown base (LayerModel.v): every run of it
    over a base that behaves as a disk is a run of LazyModel.v. *)
From Coq Require Import List Arith NArith Bool Lia ZifyBool ZifyNat.
Import ListNotations.
From Verif Require Import Base BaseFacts DiskSpec TraceSpec TraceFacts LazyState MetadataModel LazyModel LazyInv LazyTac
  LazyInvGuest LazyInvFetch LazyInvMeta LazySim LazyInv2 LazyReach LazyRun LazySpec LazyProofs LazyProps LayerModel LayerSpec LayerIds LayerPatch.

Section Layer.
Context {V : Type}.
Variable c : cfg V.
Variable base : nat -> V.
Variable h : nat -> N.
Hypothesis WC : well_configured c h.

(** ** The base device and the model's own medium *)
Definition kdisk (k : opkind V) (k' : dkind V) : Prop :=
  match k, k' with
  | KRead off len got, DRead off' len' got' => off = off' /\ len = len' /\ forall i, got i = got' i
  | KWrite off len w ap, DWrite off' data ap' => off = off' /\ len = length data /\ (forall i, ap i = ap' i) /\
    match w with
    | WData l => l = data
    | WBuf _ => forall i, i < len -> nth_error data i = Some (image c (off + i))
    end
  | KFlush sn, DFlush sn' => forall n, sn n = sn' n
  | _, _ => False
  end.

Definition linked (x : option (op V)) (y : option (dop V)) : Prop :=
  match x with
  | Some (mk_op o DBase k) => exists k', y = Some (mk_dop (channel_of o) (id_of o) k') /\ kdisk k k'
  | _ => y = None
  end.

(** [pe]: a call the lazy device has made and the base has not yet been given. *)
Definition pending : Type := option (nat * owner * req V).
Definition announced (pe : pending) : list (titem V) :=
  match pe with Some (n, o, r) => [TIssue n (channel_of o) (id_of o) r] | None => [] end.

Record Link (pe : pending) (O : nat -> option (op V)) (B : nat -> list (nat * V)) (D : nat -> bool) (d : disk V) : Prop := {
  lk_hist : forall x, B x = d_hist d x;
  lk_done : forall n, D n = d_done d n;
  lk_op : forall n, (forall o r, pe <> Some (n, o, r)) -> linked (O n) (d_ops d n);
  lk_pe : forall n o r, pe = Some (n, o, r) -> d_ops d n = None /\
            exists k, O n = Some (mk_op o DBase k) /\ kdisk k (start_kind d r)
}.

Notation reached := (reached c base h).
Notation history := (history c base h).

Definition adds_fit (es : list (event V)) : Prop := forall q id r, In (EAdd q id r) es -> in_bounds c r.

Record Related (pe : pending) (so : state V) (es : list (event V)) (d : disk V) (O : nat -> option (op V)) B D F : Prop := {
  r_state : reached es = patch O B D F so;
  r_alike : alike (ops so) O;
  r_link : Link pe O B D d;
  r_fit : adds_fit es
}.

Lemma r_ok pe so es d O B D F : Related pe so es d O B D F ->
  Ok c (hs h) (patch O B D F so) /\ panic so = false.
Proof.
  intros [E A L Fi]. split.
  - rewrite <- E. apply ok_reached, WC.
  - pose proof (C13_no_panic c base h WC es Fi) as P. rewrite E in P. exact P.
Qed.

Lemma r_known pe so es d O B D F : Related pe so es d O B D F -> known so.
Proof.
  intros R. destruct (r_ok _ _ _ _ _ _ _ _ R) as [[HI _ _] _]. destruct R as [_ A _ _]. constructor.
  - destruct (ops so (next so)) as [[o [|] k]|] eqn:E; try exact I.
    specialize (A (next so)). rewrite E in A. cbn in A. destruct (O (next so)) as [x|] eqn:EO; [|contradiction].
    pose proof (i_N_ops _ _ _ HI (next so) x EO) as X. cbn in X. lia.
  - intros n st b E. exact (proj2 (i_F_sop _ _ _ HI n st b E)).
  - intros n o k E. specialize (A n). rewrite E in A. cbn in A. destruct (O n) as [[o' [|] k']|] eqn:EO; try contradiction.
    destruct A as [<- <-]. destruct o as [q id|st].
    + pose proof (i_G_op _ _ _ HI n q id DImage k EO) as G. cbn in G. destruct k as [|off len got|]; try contradiction.
      exists q, id, off, len, got. auto.
    + destruct (i_F_op _ _ _ HI n st DImage k EO) as [X _]. discriminate X.
Qed.

Lemma r_fresh pe so es d O B D F n : Related pe so es d O B D F -> fresh so n -> O n = None.
Proof.
  intros R Hf. destruct (r_ok _ _ _ _ _ _ _ _ R) as [[HI [ds HS] _] _]. destruct Hf as [->|(q & r & Hr & <-)].
  - destruct (O (next so)) as [x|] eqn:E; [|reflexivity]. pose proof (i_N_ops _ _ _ HI (next so) x E) as X. cbn in X. lia.
  - apply (proj2 (s_nodup _ _ _ HS q)). unfold serials. apply in_or_app. left. apply (in_map (@rq_serial V)). exact Hr.
Qed.

(** Replacing one operation on both sides. *)
Lemma alike_upd (f O : nat -> option (op V)) n x y : alike f O -> op_alike x y -> alike (upd f n x) (upd O n y).
Proof. intros A H m. unfold upd. destruct (m =? n); auto. Qed.

Lemma alike_right (f O : nat -> option (op V)) n x y : alike f O -> O n = Some x -> op_alike (Some x) (Some y) -> alike f (upd O n (Some y)).
Proof.
  intros A E H m. unfold upd. destruct (Nat.eqb_spec m n) as [->|]; [|apply A].
  specialize (A n). rewrite E in A. destruct (f n) as [[o [|] k]|], x as [o1 [|] k1], y as [o2 [|] k2]; cbn in *; try contradiction.
  - destruct A as [-> A], H as [-> H]. split; auto. destruct k, k1, k2; cbn in *; try contradiction; auto; intuition congruence.
  - intuition congruence.
Qed.

Lemma kind_alike_refl (k : opkind V) : kind_alike k k.
Proof. destruct k; cbn; auto. Qed.

Lemma reached_snoc es e : reached (es ++ [e]) = fst (step c (reached es) e).
Proof.
  rewrite (reached_app c base h). cbn [run]. destruct (step c (reached es) e) as [s1 t1]. reflexivity.
Qed.
Lemma history_snoc es e : history (es ++ [e]) = history es ++ snd (step c (reached es) e).
Proof.
  rewrite (history_app c base h). cbn [run]. destruct (step c (reached es) e) as [s1 t1]. cbn [fst snd]. now rewrite app_nil_r.
Qed.

Lemma fit_snoc es e : adds_fit es -> match e with EAdd _ _ r => in_bounds c r | _ => True end -> adds_fit (es ++ [e]).
Proof. intros H He q id r Hin. apply in_app_iff in Hin as [X|[->|[]]]; eauto. Qed.

(** ** Steps of the base device that nobody sees *)
Lemma sim_silent pe so es d O B D F e d1 : Related pe so es d O B D F -> dstep (target c) d e = Some (d1, []) ->
  exists e' O' B', Related pe so (es ++ [e']) d1 O' B' D F /\ history (es ++ [e']) = history es.
Proof.
  intros R St. destruct (r_ok _ _ _ _ _ _ _ _ R) as [[HI _ _] Hp]. destruct R as [E A [Lh Ld Lo Lp] Fi].
  unfold dstep in St. destruct e as [n q id r|n i|n i|n ok|p].
  - destruct (d_used d n); discriminate St.
  - destruct (d_ops d n) as [[ch id k]|] eqn:Ed; [|discriminate St].
    assert (Np : forall n' o r, pe = Some (n', o, r) -> n' <> n) by (intros n' o r Ep ->; destruct (Lp _ _ _ Ep); congruence).
    assert (Ln : linked (O n) (d_ops d n)) by (apply Lo; intros o r Ep; exact (Np _ _ _ Ep eq_refl)). rewrite Ed in Ln. unfold linked in Ln.
    destruct (O n) as [[o [|] k0]|] eqn:EO; try discriminate Ln.
    destruct Ln as (k' & Ek & Hk). injection Ek as -> -> <-.
    destruct k as [| off data ap |]; try discriminate St. destruct k0 as [off0 len w ap0| |]; try contradiction.
    destruct Hk as (-> & -> & Hap & Hw).
    destruct (nth_error data i) as [v|] eqn:En; [|discriminate St].
    destruct ((off + i <? target c) && negb (ap i)) eqn:Ec; [|discriminate St]. injection St as <-.
    assert (Hi : i < length data) by (apply nth_error_Some; congruence).
    assert (Hv : write_value w i (patch O B D F so) = Some v).
    { destruct w as [l|b]; cbn [write_value]; [congruence|]. rewrite (Hw i Hi) in En. injection En as <-. f_equal.
      destruct o as [q id|st].
      - pose proof (i_G_op _ _ _ HI _ _ _ _ _ EO) as G. destruct G as [(l & G & _) _]. discriminate G.
      - exact (i_D_buf _ _ _ HI n st DBase off (length data) b ap0 EO i Hi). }
    exists (EApply n i), (upd O n (Some (mk_op o DBase (KWrite off (length data) w (upd ap0 i true))))),
      (upd B (off + i) ((n, v) :: B (off + i))).
    assert (S1 : step c (patch O B D F so) (EApply n i) =
       (patch (upd O n (Some (mk_op o DBase (KWrite off (length data) w (upd ap0 i true)))))
          (upd B (off + i) ((n, v) :: B (off + i))) D F so, [])).
    { cbn [step]. rewrite p_panic, Hp. unfold base_apply. rewrite p_ops, EO, Hv, Hap.
      replace (i <? length data) with true by (symmetry; apply Nat.ltb_lt; exact Hi). cbn [andb]. rewrite Ec. reflexivity. }
    split; [split|].
    + rewrite reached_snoc, E, S1. reflexivity.
    + eapply alike_right; eauto. cbn. auto.
    + constructor; cbn [d_hist d_done d_ops]; auto.
      * intros x. unfold upd. destruct (Nat.eqb_spec x (off + i)); [subst x; now rewrite Lh|apply Lh].
      * intros m Hm. unfold upd. destruct (Nat.eqb_spec m n) as [->|]; [|apply Lo; auto].
        eexists. split; [reflexivity|]. cbn [kdisk]. repeat match goal with |- _ /\ _ => split end; auto.
        intros j. try unfold upd. destruct (j =? i); auto.
      * intros n' o' r Ep. pose proof (Np _ _ _ Ep) as Hne. destruct (Lp _ _ _ Ep) as (X & k1 & Y & Z).
        unfold upd. apply Nat.eqb_neq in Hne. rewrite Hne. split; [exact X|]. exists k1. split; [exact Y|]. destruct r; exact Z.
    + apply fit_snoc; auto.
    + rewrite history_snoc, E, S1. apply app_nil_r.
  - destruct (d_ops d n) as [[ch id k]|] eqn:Ed; [|discriminate St].
    assert (Np : forall n' o r, pe = Some (n', o, r) -> n' <> n) by (intros n' o r Ep ->; destruct (Lp _ _ _ Ep); congruence).
    assert (Ln : linked (O n) (d_ops d n)) by (apply Lo; intros o r Ep; exact (Np _ _ _ Ep eq_refl)). rewrite Ed in Ln. unfold linked in Ln.
    destruct (O n) as [[o [|] k0]|] eqn:EO; try discriminate Ln.
    destruct Ln as (k' & Ek & Hk). injection Ek as -> -> <-.
    destruct k as [off len got | |]; try discriminate St. destruct k0 as [|off0 len0 got0|]; try contradiction.
    destruct Hk as (-> & -> & Hg).
    destruct ((off + i <? target c) && (i <? len)) eqn:Ec; [|discriminate St]. injection St as <-.
    exists (ESample n i), (upd O n (Some (mk_op o DBase (KRead off len (upd got0 i (cur (B (off + i)))))))), B.
    assert (S1 : step c (patch O B D F so) (ESample n i) =
       (patch (upd O n (Some (mk_op o DBase (KRead off len (upd got0 i (cur (B (off + i)))))))) B D F so, [])).
    { cbn [step]. rewrite p_panic, Hp. unfold read_sample. rewrite p_ops, EO. cbn [dev_size dev_cur].
      rewrite andb_comm, Ec. reflexivity. }
    split; [split|].
    + rewrite reached_snoc, E, S1. reflexivity.
    + eapply alike_right; eauto. cbn. auto.
    + constructor; cbn [set_kind d_hist d_done d_ops]; auto.
      * intros m Hm. unfold upd. destruct (Nat.eqb_spec m n) as [->|]; [|apply Lo; auto].
      eexists. split; [reflexivity|]. cbn [kdisk]. repeat match goal with |- _ /\ _ => split end; auto.
      intros j. try unfold upd. destruct (j =? i); auto. now rewrite Lh.
      * intros n' o' r Ep. pose proof (Np _ _ _ Ep) as Hne. destruct (Lp _ _ _ Ep) as (X & k1 & Y & Z).
        unfold upd. apply Nat.eqb_neq in Hne. rewrite Hne. split; [exact X|]. exists k1. split; [exact Y|]. destruct r; exact Z.
    + apply fit_snoc; auto.
    + rewrite history_snoc, E, S1. apply app_nil_r.
  - destruct (d_ops d n) as [[ch id k]|]; [|discriminate St]. destruct ok; [|discriminate St].
    destruct k; try discriminate St; destruct (in_range_all _ _ _ _); discriminate St.
  - discriminate St.
Qed.

Lemma sim_silents des : forall pe so es d O B D F d1, Related pe so es d O B D F -> drun (target c) d des = Some (d1, []) ->
  exists es' O' B', Related pe so (es ++ es') d1 O' B' D F /\ history (es ++ es') = history es.
Proof.
  induction des as [|e des IH]; intros pe so es d O B D F d1 R Hr; cbn [drun] in Hr.
  - injection Hr as <-. exists [], O, B. rewrite app_nil_r. auto.
  - destruct (dstep (target c) d e) as [[d2 t2]|] eqn:E; [|discriminate Hr].
    destruct (drun (target c) d2 des) as [[d3 t3]|] eqn:E2; [|discriminate Hr]. injection Hr as <- Ht.
    apply app_eq_nil in Ht as [-> ->].
    destruct (sim_silent _ _ _ _ _ _ _ _ _ _ R E) as (e' & O1 & B1 & R1 & H1).
    destruct (IH _ _ _ _ _ _ _ _ _ R1 E2) as (es2 & O2 & B2 & R2 & H2).
    exists (e' :: es2), O2, B2. replace (es ++ e' :: es2) with ((es ++ [e']) ++ es2) by (rewrite <- app_assoc; reflexivity).
    split; auto. congruence.
Qed.

(** ** The calls made in one step *)
Lemma flat_none {A C} (f : A -> list C) l : (forall x, In x l -> f x = []) -> flat_map f l = [].
Proof. induction l as [|a l IH]; intros H; cbn; [reflexivity|]. rewrite H by (now left). apply IH. intros; apply H; now right. Qed.
Lemma flat_one {C} (f : nat -> list C) y n : forall k a, a <= n < a + k -> f n = [y] -> (forall m, m <> n -> f m = []) ->
  flat_map f (seq a k) = [y].
Proof.
  induction k as [|k IH]; intros a Hn Hy H0; [lia|]. cbn [seq flat_map]. destruct (Nat.eq_dec a n) as [->|Hne].
  - rewrite Hy, flat_none; [reflexivity|]. intros m Hm. apply in_seq in Hm. apply H0. lia.
  - rewrite (H0 a Hne). apply IH; auto. lia.
Qed.

Lemma calls_same (s s' : state V) : ops s' = ops s -> calls s s' = [].
Proof. intros E. unfold calls. apply flat_none. intros n _. rewrite E. destruct (ops s n) as [[o [|] k]|]; reflexivity. Qed.
Lemma calls_image (s s' : state V) n x : ops s' = upd (ops s) n x -> not_base x -> calls s s' = [].
Proof.
  intros E Hx. unfold calls. apply flat_none. intros m _. rewrite E. unfold upd. destruct (m =? n).
  - destruct x as [[o [|] k]|]; [contradiction| |]; destruct (ops s m); reflexivity.
  - destruct (ops s m) as [[o [|] k]|]; reflexivity.
Qed.
Lemma calls_one (s s' : state V) n o k : ops s' = upd (ops s) n (Some (mk_op o DBase k)) -> ops s n = None -> n < next s' ->
  calls s s' = [TIssue n (channel_of o) (id_of o) (request_of s' k)].
Proof.
  intros E En Hn. unfold calls. apply (flat_one _ _ n); [lia| |].
  - rewrite En, E. unfold upd. rewrite Nat.eqb_refl. reflexivity.
  - intros m Hm. rewrite E. unfold upd. apply Nat.eqb_neq in Hm. rewrite Hm. destruct (ops s m) as [[o' [|] k']|]; reflexivity.
Qed.

Lemma alike_none (f O : nat -> option (op V)) n : alike f O -> O n = None -> f n = None.
Proof. intros A E. specialize (A n). rewrite E in A. destruct (f n) as [[o [|] k]|]; cbn in A; auto; contradiction. Qed.
Lemma alike_not_base (f O : nat -> option (op V)) n : alike f O -> not_base (f n) -> not_base (O n).
Proof. intros A E. specialize (A n). destruct (f n) as [[o [|] k]|], (O n) as [[o' [|] k']|]; cbn in *; auto. Qed.
Lemma start_alike bd D (k : opkind V) : kind_alike (start_of bd k) (start_of D k).
Proof. destruct k; cbn; auto. Qed.

(** One step of the lazy device and the call it makes. *)
Lemma sim_moved (Fr : nat -> Prop) so so' es' d O B D O' F' bd :
  alike (ops so) O -> Link None O B D d -> (forall n, Fr n -> O n = None) ->
  reached es' = patch O' B D F' so' -> adds_fit es' ->
  moved c Fr (bufs so') bd D (ops so) (ops so') O O' ->
  exists pe, Related pe so' es' d O' B D F' /\ calls so so' = announced pe.
Proof.
  intros A [Lh Ld Lo Lp] Hfr E' Fi' M.
  assert (Lo' : forall n, linked (O n) (d_ops d n)) by (intros n; apply Lo; discriminate).
  destruct M as [Mf MO|n o k Fn Fd Mf MO|n x Mf MO Nb Nf].
  - exists None. subst O'. split; [|exact (calls_same _ _ Mf)]. split; auto; [rewrite Mf; auto|split; auto].
  - pose proof (Hfr n Fn) as EO.
    assert (Ok1 : Ok c (hs h) (patch O' B D F' so')) by (rewrite <- E'; apply ok_reached, WC). destruct Ok1 as [HI _ _].
    assert (On : O' n = Some (mk_op o DBase (start_of D k))) by (rewrite MO; unfold upd; now rewrite Nat.eqb_refl).
    assert (Hn : n < next so') by exact (i_N_ops _ _ _ HI n _ On).
    exists (Some (n, o, request_of so' (start_of bd k))). split; [|exact (calls_one so so' n o _ Mf (alike_none _ _ _ A EO) Hn)].
    split; auto.
    + rewrite Mf, MO. apply alike_upd; auto. cbn. split; auto. apply start_alike.
    + split; auto.
      * intros m Hm. rewrite MO. unfold upd. destruct (Nat.eqb_spec m n) as [->|]; [|apply Lo'].
        exfalso. exact (Hm _ _ eq_refl).
      * intros n' o' r' Ep. injection Ep as <- <- <-. split.
        { pose proof (Lo' n) as X. rewrite EO in X. exact X. }
        exists (start_of D k). split; auto.
        destruct k as [off len w ap|off len got|sn]; cbn [start_of request_of start_kind kdisk].
        -- destruct w as [l|b]; cbn [start_kind kdisk].
           ++ destruct o as [q id|st]; [|contradiction]. cbn [filled_data] in Fd. auto.
           ++ destruct o as [q id|st]; [contradiction|]. destruct Fd as (-> & Hlen & Hd).
              rewrite map_length, seq_length. repeat match goal with |- _ /\ _ => split end; auto.
              intros i Hi. destruct (i_F_op _ _ _ HI n st DBase _ On) as (_ & _ & El & _ & Hfs).
              destruct (i_F_range _ _ _ HI st _ Hfs) as [Hst Hsrc].
              assert (Hq : nth_error (seq 0 len) i = Some i).
              { rewrite nth_error_nth' with (d := 0) by (rewrite seq_length; lia). rewrite seq_nth by lia. reflexivity. }
              rewrite (map_nth_error (bufs so' b) i (seq 0 len) Hq).
              { f_equal. apply Hd; [lia|]. pose proof (wc_ssc _ _ WC) as Hs.
                assert (Hx : (st * ssc c + i) / ssc c = st).
                { rewrite Nat.div_add_l by lia. rewrite Nat.div_small by lia. lia. }
                assert (Hu : released (shf (patch O' B D F' so') st) = false) by (apply (i_F_unrel _ _ _ HI _ _ Hfs); discriminate).
                destruct (i_cover _ _ _ HI (st * ssc c + i)) as [X|[X _]]; rewrite ?Hx; auto; lia. }
        -- auto.
        -- auto.
  - exists None. subst O'. split; [|exact (calls_image _ _ _ _ Mf Nb)]. split; auto.
    + rewrite Mf. apply alike_upd; auto. destruct x as [[o [|] k]|]; [contradiction| |]; cbn; auto.
    + split; auto; [|discriminate]. intros m _. unfold upd. destruct (Nat.eqb_spec m n) as [->|]; [|apply Lo'].
      pose proof (Lo' n) as Ln. pose proof (alike_not_base _ _ _ A Nf) as X. destruct x as [[o [|] k]|]; [contradiction| |];
        destruct (O n) as [[o' [|] k']|]; auto; contradiction.
Qed.

(** The base is given the call. *)
Lemma sim_announced pe so es d O B D F des d1 : Related pe so es d O B D F ->
  drun (target c) d des = Some (d1, announced pe) ->
  exists es' O' B', Related None so (es ++ es') d1 O' B' D F /\ history (es ++ es') = history es.
Proof.
  intros R Hr. destruct pe as [[[n o] r]|]; [|exact (sim_silents _ _ _ _ _ _ _ _ _ _ R Hr)].
  destruct (drun_item _ _ _ _ _ _ Hr) as (e0 & e & e2 & da & db & R1 & R2 & R3).
  destruct (sim_silents _ _ _ _ _ _ _ _ _ _ R R1) as (es1 & O1 & B1 & Q1 & H1).
  apply item_issue in R2 as [_ ->].
  assert (Q2 : Related None so (es ++ es1) (dissue n (channel_of o) (id_of o) r da) O1 B1 D F).
  { destruct Q1 as [E A [Lh Ld Lo Lp] Fi]. split; auto. split; auto; [|discriminate].
    intros m _. cbn [dissue d_ops]. unfold upd. destruct (Nat.eqb_spec m n) as [->|Hm].
    - destruct (Lp n o r eq_refl) as (_ & k & -> & Hk). cbn [linked]. eauto.
    - apply Lo. intros o' r' X. injection X as X _ _. congruence. }
  destruct (sim_silents _ _ _ _ _ _ _ _ _ _ Q2 R3) as (es2 & O2 & B2 & Q3 & H3).
  exists (es1 ++ es2), O2, B2. rewrite app_assoc. split; auto. congruence.
Qed.

(** ** One event *)
Definition event_fits (e : oevent V) : Prop := match e with OOwn (EAdd _ _ r) => in_bounds c r | _ => True end.

Lemma in_range_ext size off len (f g : nat -> bool) : (forall i, f i = g i) -> in_range_all size off len f = in_range_all size off len g.
Proof. intros H. unfold in_range_all. induction (seq 0 len) as [|a l IH]; cbn [forallb]; [reflexivity|]. rewrite H. f_equal. exact IH. Qed.
Lemma read_data_ext len (f g : nat -> option V) : (forall i, f i = g i) -> read_data len f = read_data len g.
Proof. intros H. unfold read_data. apply map_ext. exact H. Qed.
Lemma trim_ext {A} (f g : nat -> bool) (l : list (nat * A)) : (forall n, f n = g n) -> trim f l = trim g l.
Proof. intros H. induction l as [|e l IH]; cbn; [reflexivity|]. now rewrite H, IH. Qed.

Definition no_call (t : list (titem V)) : Prop := forall n q id r, ~ In (TIssue n q id r) t.

(** What the base reports in this step comes first, then the call. *)
Lemma sim_head so es d O B D F e so' g b :
  Related None so es d O B D F -> event_fits e -> ostep c so e = Some (so', g, b) ->
  exists hd rest, b = hd ++ rest /\ no_call hd /\
    forall des d1, drun (target c) d des = Some (d1, hd) ->
    exists pe es' O' B' D' F', rest = announced pe /\ Related pe so' (es ++ es') d1 O' B' D' F' /\
      history (es ++ es') = history es ++ g.
Proof.
  intros R Fe St. destruct (r_ok _ _ _ _ _ _ _ _ R) as [_ Hp]. destruct e as [e|n ok data|bb i v|pm]; cbn [ostep] in St.
  - destruct (own so e) eqn:Ho; [|discriminate St].
    destruct (step c so e) as [s1 t1] eqn:Es. injection St as <- <- <-.
    destruct (step_cong c so e O B D F (r_alike _ _ _ _ _ _ _ _ R) (r_known _ _ _ _ _ _ _ _ R) Ho) as (O1 & F1 & X1 & X2 & M).
    rewrite Es in X1, X2, M. cbn [fst snd] in X1, X2, M.
    assert (E1 : reached (es ++ [e]) = patch O1 B D F1 s1) by (rewrite reached_snoc, (r_state _ _ _ _ _ _ _ _ R); exact X1).
    assert (Fi : adds_fit (es ++ [e])).
    { apply fit_snoc; [apply R|]. destruct e; auto. }
    destruct (sim_moved _ _ _ _ _ _ _ _ _ _ _ (r_alike _ _ _ _ _ _ _ _ R) (r_link _ _ _ _ _ _ _ _ R)
      (fun n => r_fresh _ _ _ _ _ _ _ _ n R) E1 Fi M) as (pe & R1 & Ec).
    exists [], (calls so s1). split; [reflexivity|]. split; [intros ? ? ? ? []|]. intros des d1 Hr.
    destruct (sim_silents _ _ _ _ _ _ _ _ _ _ R1 Hr) as (es2 & O2 & B2 & R2 & H2).
    exists pe, (e :: es2), O2, B2, D, F1. split; [exact Ec|]. replace (es ++ e :: es2) with ((es ++ [e]) ++ es2) by (rewrite <- app_assoc; reflexivity).
    split; auto. rewrite H2, history_snoc, (r_state _ _ _ _ _ _ _ _ R). now rewrite X2.
  - rewrite Hp in St. destruct (ops so n) as [[o [|] k]|] eqn:En; try discriminate St.
    assert (Hd : exists tl, b = TDone n (channel_of o) (id_of o) ok data :: tl).
    { destruct o as [q id|st]; [injection St as <- <- <-; eauto|]. destruct (wdone so); [discriminate St|]. injection St as <- <- <-. eauto. }
    destruct Hd as (tl & ->).
    exists [TDone n (channel_of o) (id_of o) ok data], tl. split; [reflexivity|]. split; [intros ? ? ? ? [X|[]]; discriminate X|].
    intros des d1 Hr. destruct (drun_item _ _ _ _ _ _ Hr) as (e0 & e & e2 & da & db & R1 & R2 & R3).
    destruct (sim_silents _ _ _ _ _ _ _ _ _ _ R R1) as (es1 & O1 & B1 & Q1 & H1). clear R Hr R1.
    apply item_done in R2 as (k' & Ed & R2).
    pose proof Q1 as Q0. destruct Q0 as [E A [Lh Ld Lo _] Fi].
    assert (Lo' : forall m, linked (O1 m) (d_ops da m)) by (intros m; apply Lo; discriminate). clear Lo.
    pose proof (Lo' n) as Ln. rewrite Ed in Ln. pose proof (A n) as An. rewrite En in An. cbn [op_alike] in An.
    destruct (O1 n) as [[o1 [|] k1]|] eqn:EO; try contradiction. destruct An as [<- Ak].
    destruct Ln as (k2 & X & Hk). injection X as <-.
    (* what the model's own device does *)
    assert (Fin : exists B2 D2, op_done c n ok (patch O1 B1 D F so) =
        match o with
        | OGuest q id => (patch (upd O1 n None) B2 D2 F (set_ops (upd (ops so) n None) so), [TDone n q id ok data])
        | OFetch st => if wdone so then (patch O1 B1 D F so, []) else (tgt_done c st ok (patch (upd O1 n None) B2 D2 F (set_ops (upd (ops so) n None) so)), [])
        end /\ Link None (upd O1 n None) B2 D2 db).
    { assert (Ml : forall hist dn, (forall x, hist x = hist x) -> forall B2 D2, (forall x, B2 x = hist x) -> (forall x, D2 x = dn x) ->
         Link None (upd O1 n None) B2 D2 (mk_disk (upd (d_ops da) n None) (d_used da) hist dn)).
      { intros hist dn _ B2 D2 HB HD. split; auto; [|discriminate]. intros m _. cbn [d_ops]. unfold upd.
        destruct (m =? n); [reflexivity|apply Lo']. }
      unfold op_done. rewrite p_ops, EO, p_wdone. cbn [dstep] in R2. rewrite Ed in R2. destruct ok.
      - destruct k' as [off len got|off dat ap|sn], k1 as [off1 len1 w1 ap1|off1 len1 got1|sn1]; try contradiction.
        + destruct Hk as (-> & -> & Hg).
          destruct (in_range_all (target c) off len (fun i => is_some (got i))) eqn:Er; [|discriminate R2]. injection R2 as <- <-.
          cbn [completable dev_size]. rewrite (in_range_ext _ _ _ _ _ (fun i => f_equal is_some (Hg i))), Er.
          cbn [andb negb complete_medium op_data]. rewrite (read_data_ext _ _ _ Hg), p_set_ops.
          exists B1, D. split; [destruct o; rewrite a_ops; reflexivity|]. apply Ml; auto.
        + destruct Hk as (-> & -> & Ha & Hw).
          destruct (in_range_all (target c) off (length dat) ap) eqn:Er; [|discriminate R2]. injection R2 as <- <-.
          cbn [completable dev_size]. rewrite (in_range_ext _ _ _ _ _ Ha), Er.
          cbn [andb negb complete_medium op_data].
          exists B1, (upd D n true). split; [destruct o; reflexivity|]. apply Ml; auto.
          intros x. unfold upd. destruct (x =? n); auto.
        + injection R2 as <- <-. cbn [completable andb negb complete_medium op_data].
          exists (fun x => trim sn1 (B1 x)), D. split; [destruct o; reflexivity|]. apply Ml; auto.
          intros x. rewrite Lh. apply trim_ext. exact Hk.
      - injection R2 as <- <-. cbn [andb]. exists B1, D. split; [destruct o; reflexivity|]. apply Ml; auto. }
    destruct Fin as (B2 & D2 & Sd & L2).
    assert (A2 : alike (ops (set_ops (upd (ops so) n None) so)) (upd O1 n None)) by (apply alike_upd; cbn; auto).
    assert (S2 : step c (reached (es ++ es1)) (EDone n ok) = op_done c n ok (patch O1 B1 D F so)).
    { rewrite E. unfold step. rewrite p_panic, Hp. reflexivity. }
    assert (Fi2 : adds_fit ((es ++ es1) ++ [EDone n ok])) by (apply fit_snoc; auto).
    rewrite Sd in S2.
    assert (Go : forall so2 pe O2 F2, Related pe so2 ((es ++ es1) ++ [EDone n ok]) db O2 B2 D2 F2 -> tl = announced pe ->
       so' = so2 -> g = snd (step c (reached (es ++ es1)) (EDone n ok)) ->
       exists pe es' O' B' D' F', tl = announced pe /\ Related pe so' (es ++ es') d1 O' B' D' F' /\ history (es ++ es') = history es ++ g).
    { intros so2 pe O2 F2 Rl Et -> ->.
      destruct (sim_silents _ _ _ _ _ _ _ _ _ _ Rl R3) as (es3 & O3 & B3 & R4 & H4).
      exists pe, (es1 ++ [EDone n ok] ++ es3), O3, B3, D2, F2. rewrite !app_assoc in *. split; [exact Et|]. split; auto.
      rewrite H4, history_snoc, H1. reflexivity. }
    destruct o as [q id|st].
    + injection St as <- <- <-. apply (Go (set_ops (upd (ops so) n None) so) None (upd O1 n None) F); [|reflexivity|reflexivity|now rewrite S2].
      split; [rewrite reached_snoc, S2; reflexivity|exact A2|exact L2|exact Fi2].
    + destruct (wdone so) eqn:Ew; [discriminate St|]. injection St as <- <- <-.
      set (s1 := set_ops (upd (ops so) n None) so) in *.
      destruct (cong_tgt_done c st ok (fun m => m = next so) s1 eq_refl (upd O1 n None) B2 D2 F A2) as (O3 & F3 & X1 & M).
      assert (E3 : reached ((es ++ es1) ++ [EDone n ok]) = patch O3 B2 D2 F3 (tgt_done c st ok s1)).
      { rewrite reached_snoc, S2. exact X1. }
      assert (Fr : forall m, m = next so -> upd O1 n None m = None).
      { intros m ->. unfold upd. destruct (next so =? n); auto. apply (r_fresh _ _ _ _ _ _ _ _ (next so) Q1). now left. }
      destruct (sim_moved _ _ _ _ _ _ _ _ _ _ _ A2 L2 Fr E3 Fi2 M) as (pe & R5 & Ec).
      apply (Go (tgt_done c st ok s1) pe O3 F3); auto. now rewrite S2.
  - injection St as <- <- <-. exists [], []. split; [reflexivity|]. split; [intros ? ? ? ? []|]. intros des d1 Hr.
    destruct (sim_silents _ _ _ _ _ _ _ _ _ _ R Hr) as (es1 & O1 & B1 & Q1 & H1).
    exists None, es1, O1, B1, D, F. rewrite H1, app_nil_r. split; [reflexivity|]. split; auto.
    destruct Q1 as [E A L Fi]. split; auto.
  - injection St as <- <- <-.
    exists [TCrash], []. split; [reflexivity|]. split; [intros ? ? ? ? [X|[]]; discriminate X|]. intros des d1 Hr.
    destruct (drun_item _ _ _ _ _ _ Hr) as (e0 & e & e2 & da & db & R1 & R2 & R3).
    destruct (sim_silents _ _ _ _ _ _ _ _ _ _ R R1) as (es1 & O1 & B1 & Q1 & H1). clear R Hr R1.
    apply item_crash in R2 as (p & ->). destruct Q1 as [E A [Lh Ld Lo Lp] Fi].
    set (ec := @ECrash V p pm).
    assert (R4 : Related None (crash c (fun _ => 0) pm so) ((es ++ es1) ++ [ec])
      (mk_disk (fun _ => None) (d_used da) (fun s => crashed (d_hist da s) (p s)) (d_done da))
      (fun _ => None) (fun x => crashed (B1 x) (p x)) D (fun _ _ => blank c)).
    { split.
      - rewrite reached_snoc, E. reflexivity.
      - intros m. exact I.
      - split; cbn [d_hist d_done d_ops]; auto; [|intros m _; reflexivity|discriminate]. intros x. now rewrite Lh.
      - apply fit_snoc; auto. }
    destruct (sim_silents _ _ _ _ _ _ _ _ _ _ R4 R3) as (es2 & O2 & B2 & Q2 & H2).
    exists None, (es1 ++ [ec] ++ es2), O2, B2, D, (fun _ _ => blank c). rewrite !app_assoc in *. split; [reflexivity|]. split; auto.
    rewrite H2, history_snoc, H1. reflexivity.
Qed.

Lemma sim_event so es d O B D F e so' g b des d1 :
  Related None so es d O B D F -> event_fits e -> ostep c so e = Some (so', g, b) ->
  drun (target c) d des = Some (d1, b) ->
  exists es' O' B' D' F', Related None so' (es ++ es') d1 O' B' D' F' /\ history (es ++ es') = history es ++ g.
Proof.
  intros R Fe St Hr. destruct (sim_head _ _ _ _ _ _ _ _ _ _ _ R Fe St) as (hd & rest & -> & _ & Hh).
  destruct (drun_cut _ _ _ _ _ _ Hr) as (x1 & x2 & dm & D1 & D2).
  destruct (Hh _ _ D1) as (pe & es1 & O1 & B1 & DD1 & F1 & -> & R1 & H1).
  destruct (sim_announced _ _ _ _ _ _ _ _ _ _ R1 D2) as (es2 & O2 & B2 & R2 & H2).
  exists (es1 ++ es2), O2, B2, DD1, F1. rewrite app_assoc. split; auto. congruence.
Qed.

Lemma sim_run_open oes : forall so es d O B D F so' g b des d1,
  Related None so es d O B D F -> (forall e, In e oes -> event_fits e) -> orun c so oes = Some (so', g, b) ->
  drun (target c) d des = Some (d1, b) ->
  exists es' O' B' D' F', Related None so' (es ++ es') d1 O' B' D' F' /\ history (es ++ es') = history es ++ g.
Proof.
  induction oes as [|e oes IH]; intros so es d O B D F so' g b des d1 R Fe Hs Hr; cbn [orun] in Hs.
  - injection Hs as <- <- <-. destruct (sim_silents _ _ _ _ _ _ _ _ _ _ R Hr) as (es1 & O1 & B1 & Q1 & H1).
    exists es1, O1, B1, D, F. rewrite H1, app_nil_r. auto.
  - destruct (ostep c so e) as [[[s1 t1] b1]|] eqn:E1; [|discriminate Hs].
    destruct (orun c s1 oes) as [[[s2 t2] b2]|] eqn:E2; [|discriminate Hs]. injection Hs as <- <- <-.
    destruct (drun_cut _ _ _ _ _ _ Hr) as (x1 & x2 & dm & D1 & D2).
    destruct (sim_event _ _ _ _ _ _ _ _ _ _ _ _ _ R (Fe e (or_introl eq_refl)) E1 D1) as (es1 & O1 & B1 & DD1 & F1 & R1 & H1).
    destruct (IH _ _ _ _ _ _ _ _ _ _ _ _ R1 (fun e0 X => Fe e0 (or_intror X)) E2 D2) as (es2 & O2 & B2 & DD2 & F2 & R2 & H2).
    exists (es1 ++ es2), O2, B2, DD2, F2. rewrite app_assoc. split; auto. rewrite H2, H1. now rewrite app_assoc.
Qed.

Lemma related_init : Related None (oinit c h) [] (new_disk base) (fun _ => None) (fun x => [(0, base x)]) (fun n => n =? 0)
  (fun _ _ => blank c).
Proof.
  split.
  - reflexivity.
  - intros n. exact I.
  - split; auto; [|discriminate]. intros n _. reflexivity.
  - intros q id r [].
Qed.

Theorem open_is_closed oes so g b d : (forall e, In e oes -> event_fits e) ->
  orun c (oinit c h) oes = Some (so, g, b) -> disk_behaviour (target c) base b d ->
  exists es, history es = g /\ adds_fit es /\ (forall x, bh (reached es) x = d_hist d x) /\ shf (reached es) = shf so /\
    mh (reached es) = mh so.
Proof.
  intros Fe Hs (des & Hr). destruct (sim_run_open _ _ _ _ _ _ _ _ _ _ _ _ _ related_init Fe Hs Hr) as (es & O & B & D & F & R & H).
  exists es. cbn [app] in *. split; [exact H|]. split; [apply R|]. rewrite (r_state _ _ _ _ _ _ _ _ R).
  split; [|split; reflexivity]. intros x. exact (lk_hist _ _ _ _ _ (r_link _ _ _ _ _ _ _ _ R) x).
Qed.

(** ** The contract of the base device *)

(** The call just made does not use the id of one in flight. *)
Lemma pe_free n o r so es d O B D F : Related (Some (n, o, r)) so es d O B D F ->
  respects (target c) (initial_contents c base h) (history es) ->
  forall m k, d_ops d m <> Some (mk_dop (channel_of o) (id_of o) k).
Proof.
  intros R Hr m k Em. destruct (r_ok _ _ _ _ _ _ _ _ R) as [[HI _ _] _]. destruct R as [E A [Lh Ld Lo Lp] Fi].
  destruct (Lp _ _ _ eq_refl) as (En & kn & On & _).
  assert (Hne : m <> n) by (intros ->; congruence).
  assert (Lm : linked (O m) (d_ops d m)) by (apply Lo; intros o' r' X; injection X as X _ _; congruence).
  rewrite Em in Lm. destruct (O m) as [[om [|] km]|] eqn:Om; cbn [linked] in Lm; try discriminate Lm.
  destruct Lm as (k' & X & _). injection X as X1 X2 _.
  assert (om = o) by (destruct o, om; cbn in X1, X2; congruence). subst om.
  destruct o as [q id|st].
  - destruct (refines c base h WC es) as (ds & Bs & HS). rewrite E in HS.
    destruct (s_guest _ _ _ HS n q id DBase kn On) as (k1 & Dn & _).
    destruct (s_guest _ _ _ HS m q id DBase km Om) as (k2 & Dm & _).
    apply Hne. apply (ids_distinct (target c) (initial_contents c base h) (history es) (ex_intro _ ds Bs) Hr _ _ q id);
      apply (in_flight _ _ _ _ Bs); eauto.
  - exact (Hne (i_F_uniq_op _ _ _ HI m n st DBase DBase km kn Om On)).
Qed.

Lemma respects_open oes : forall so es d O B D F so' g b des d1 b1 b2 n q id r,
  Related None so es d O B D F -> (forall e, In e oes -> event_fits e) -> orun c so oes = Some (so', g, b) ->
  respects (target c) (initial_contents c base h) (history es ++ g) ->
  b = b1 ++ TIssue n q id r :: b2 -> drun (target c) d des = Some (d1, b1) ->
  forall m k, d_ops d1 m <> Some (mk_dop q id k).
Proof.
  induction oes as [|e oes IH]; intros so es d O B D F so' g b des d1 b1 b2 n q id r R Fe Hs Hg Eb Hr; cbn [orun] in Hs.
  - injection Hs as <- <- <-. destruct b1; discriminate Eb.
  - destruct (ostep c so e) as [[[s1 t1] be]|] eqn:E1; [|discriminate Hs].
    destruct (orun c s1 oes) as [[[s2 t2] br]|] eqn:E2; [|discriminate Hs]. injection Hs as <- <- <-.
    pose proof (Fe e (or_introl eq_refl)) as Fe1.
    destruct (sim_head _ _ _ _ _ _ _ _ _ _ _ R Fe1 E1) as (hd & rest & -> & Hn & Hh).
    assert (Cut : (exists b3, b1 = (hd ++ rest) ++ b3 /\ br = b3 ++ TIssue n q id r :: b2) \/
                  (exists x, b1 = hd /\ rest = TIssue n q id r :: x) \/
                  (exists y x, b1 = hd ++ y /\ rest = y ++ TIssue n q id r :: x /\ y <> [])).
    { clear - Eb Hn. apply app_eq_app in Eb as (l & [[E1 E2]|[E1 E2]]).
      - destruct l as [|i l].
        + left. exists []. rewrite app_nil_r in E1. cbn in E2. split; [now rewrite app_nil_r|now rewrite <- E2].
        + cbn in E2. injection E2 as <- E2. right.
          apply app_eq_app in E1 as (l2 & [[E3 E4]|[E3 E4]]).
          * destruct l2 as [|i2 l2]; [|exfalso; cbn in E4; injection E4 as <- _; apply (Hn n q id r); rewrite E3; apply in_or_app; right; now left].
            left. cbn in E4. rewrite app_nil_r in E3. exists l. auto.
          * destruct l2 as [|i2 l2]; [left; rewrite app_nil_r in E3; exists l; auto|right]. exists (i2 :: l2), l. repeat split; auto. discriminate.
      - left. exists l. auto. }
    destruct Cut as [(b3 & -> & ->)|[(x & -> & Ex)|(y & x & -> & Ex & Hy)]].
    + destruct (drun_cut _ _ _ _ _ _ Hr) as (x1 & x2 & dm & D1 & D2).
      destruct (sim_event _ _ _ _ _ _ _ _ _ _ _ _ _ R Fe1 E1 D1) as (es1 & O1 & B1 & DD1 & F1 & R1 & H1).
      refine (IH _ _ _ _ _ _ _ _ _ _ _ _ _ _ _ _ _ _ R1 (fun e0 X => Fe e0 (or_intror X)) E2 _ eq_refl D2).
      rewrite H1. rewrite <- app_assoc. exact Hg.
    + destruct (Hh _ _ Hr) as (pe & es1 & O1 & B1 & DD1 & F1 & Ea & R1 & H1).
      rewrite Ex in Ea. destruct pe as [[[n1 o1] r1]|]; [|discriminate Ea]. cbn [announced] in Ea. injection Ea as -> -> -> -> ->.
      apply (pe_free _ _ _ _ _ _ _ _ _ _ R1). rewrite H1. rewrite app_assoc in Hg. eapply respects_prefix; eauto.
    + exfalso. destruct (drun_cut _ _ _ _ _ _ Hr) as (x1 & x2 & dm & D1 & D2).
      destruct (Hh _ _ D1) as (pe & es1 & O1 & B1 & DD1 & F1 & Ea & R1 & H1).
      apply (f_equal (@length _)) in Ex. rewrite Ea, app_length in Ex. destruct y; [contradiction|].
      destruct pe as [[[n1 o1] r1]|]; cbn in Ex; lia.
Qed.

(** Used by a guest that respects the contract, it respects the base's. *)
Theorem respects_base oes so g b : (forall e, In e oes -> event_fits e) ->
  orun c (oinit c h) oes = Some (so, g, b) ->
  respects (target c) (initial_contents c base h) g -> respects (target c) base b.
Proof.
  intros Fe Hs Hg t1 n q id r t2 Eb (d1 & des & Hd) m Hw.
  destruct (proj1 (in_flight _ _ _ _ (ex_intro _ des Hd) m q id) Hw) as (k & Ek).
  exact (respects_open oes _ _ _ _ _ _ _ _ _ _ _ _ _ _ _ _ _ _ (related_init) Fe Hs Hg Eb Hd m k Ek).
Qed.
End Layer.
