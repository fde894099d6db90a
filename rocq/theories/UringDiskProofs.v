(** The io_uring device simulates an ordinary disk. *)
From Coq Require Import List Permutation Arith NArith ZArith Bool Lia ZifyBool ZifyNat ZifyN.
Import ListNotations.
From Verif Require Import Base BaseFacts ListFacts DiskSpec SyncModel SyncSpec UringDiskModel UringDiskSpec.
From Verif Require Import SyncProofs.

Ltac Zify.zify_post_hook ::= Z.div_mod_to_equations.

Section S.
Context {V : Type}.
Variable us : N.
Variable per : nat.
Hypothesis unit_ok : (us * N.of_nat per = 512)%N.
Variable readonly osync : bool.
Variable entries : nat.
Variable nsec : nat.
Notation size := (nsec * per).
Hypothesis size_ok : (N.of_nat nsec < 2 ^ 55)%N.
Variable wt : bool.
Hypothesis wt_osync : wt = true -> osync = true.
Notation ser := (ser wt).
Notation entry := (entry wt).
Notation step := (fstep us per readonly osync entries).
Notation run := (frun us per readonly osync entries).

Lemma sinj : forall n m, ser n = ser m -> n = m.
Proof. unfold SyncProofs.ser. destruct wt; intros; lia. Qed.

Lemma units_mul : forall k, units us (N.of_nat k * 512) = k * per.
Proof.
  intros k. unfold units. rewrite <- unit_ok.
  replace (N.of_nat k * (us * N.of_nat per))%N with (N.of_nat k * N.of_nat per * us)%N by lia.
  rewrite N.div_mul; lia.
Qed.

Lemma units_offset : forall soff, soff <= nsec -> units us (byte_offset soff) = soff * per.
Proof.
  intros soff H. unfold byte_offset. rewrite N.mod_small; [apply units_mul|].
  change (2 ^ 64)%N with (2 ^ 55 * 512)%N. lia.
Qed.

Lemma units_length : forall cnt, (N.of_nat cnt < 2 ^ 23)%N -> units us (byte_length cnt) = cnt * per.
Proof.
  intros cnt H. unfold byte_length. rewrite N.mod_small; [apply units_mul|].
  change (2 ^ 32)%N with (2 ^ 23 * 512)%N. lia.
Qed.

(** A request and its counterpart on the disk. *)
Definition op_ok (s : fdev V) (n : nat) (o : fop) (k : dkind V) : Prop :=
  match f_what o with
  | WRead off len b =>
    off + len <= size /\ len <= length (f_mem s b) /\
    exists got, k = DRead off len got /\
      match f_phase o with
      | Queued => True
      | Running mv _ => forall i, i < len -> mv i = true -> got i = nth_error (f_mem s b) i
      | Finished ok => ok = true -> forall i, i < len -> got i = nth_error (f_mem s b) i
      end
  | WWrite off len b =>
    off + len <= size /\ len <= length (f_mem s b) /\
    exists ap, k = DWrite off (firstn len (f_mem s b)) ap /\
      match f_phase o with
      | Queued => forall i, ap i = false
      | Running mv _ => forall i, i < len -> ap i = mv i
      | Finished ok => ok = true -> (forall i, i < len -> ap i = true) /\
          (osync = true -> forall x, lastonly (fun e => ce_by e = n) (f_cell s x))
      end
  | WSync => exists snap, k = DFlush snap /\
      match f_phase o with
      | Queued => True
      | Running _ since => forall x e, In e (f_cell s x) -> snap (ser (ce_by e)) = true -> ce_time e < since
      | Finished ok => ok = true -> forall x, lastonly (fun e => snap (ser (ce_by e)) = true) (f_cell s x)
      end
  end.

Definition listed (s : fdev V) (q : nat) (l : list nat) : Prop :=
  NoDup l /\ forall n, In n l -> exists o ok, f_op s n = Some o /\ f_ch o = q /\ f_phase o = Finished ok.

Record sim (s : fdev V) (d : disk V) : Prop := {
  si_zero : f_used s 0 = true;
  si_hist : forall x, exists rest, d_hist d x = map entry (f_cell s x) ++ rest;
  si_cell : forall x, f_cell s x <> [];
  si_time : forall x e, In e (f_cell s x) -> ce_time e < f_now s;
  si_by : forall x e, In e (f_cell s x) -> f_used s (ce_by e) = true;
  si_used : forall n, f_used s n = false -> d_used d (ser n) = false /\ (wt = true -> d_used d (2 * n + 1) = false);
  si_done : forall m, d_done d m = true -> d_used d m = true;
  si_ops : forall m o, d_ops d m = Some o -> d_used d m = true;
  si_snap : forall m c id snap, d_ops d m = Some (mk_dop c id (DFlush snap)) ->
     forall m', snap m' = true -> d_done d m' = true;
  si_out : forall n o, f_op s n = Some o ->
     f_used s n = true /\ d_done d (ser n) = false /\ (wt = true -> d_used d (2 * n + 1) = false);
  si_op : forall n o, f_op s n = Some o ->
     exists k, d_ops d (ser n) = Some (mk_dop (f_ch o) (f_id o) k) /\ op_ok s n o k;
  si_buf : forall n m o o' b, f_op s n = Some o -> f_op s m = Some o' ->
     buffer_of (f_what o) = Some b -> buffer_of (f_what o') = Some b -> n = m;
  si_sq : forall q, NoDup (f_sq s q) /\
     forall n, In n (f_sq s q) -> exists o, f_op s n = Some o /\ f_ch o = q /\ f_phase o = Queued;
  si_fin : forall q, listed s q (f_fin s q ++ f_cq s q);
  si_wt : osync = true -> forall x, lastonly (fun e => d_done d (ser (ce_by e)) = true) (f_cell s x)
}.

(** Cells evolve by pushing values of request [n] and dropping the oldest. *)
Definition evolve (n : nat) (s s' : fdev V) : Prop :=
  forall x, exists new rest, new ++ f_cell s x = f_cell s' x ++ rest /\
    Forall (fun e => ce_by e = n /\ ce_time e < f_now s') new.

Lemma evolve_in : forall n s s', evolve n s s' -> forall x e, In e (f_cell s' x) ->
  (ce_by e = n /\ ce_time e < f_now s') \/ In e (f_cell s x).
Proof.
  intros n s s' H x e He. destruct (H x) as (new & rest & E & F).
  assert (Hi : In e (new ++ f_cell s x)) by (rewrite E; apply in_or_app; auto).
  apply in_app_or in Hi as [Hi|Hi]; auto. left. rewrite Forall_forall in F. now apply F.
Qed.

Lemma evolve_last : forall n s s' (P : cell V -> Prop), evolve n s s' -> (forall e, ce_by e = n -> ~ P e) ->
  forall x, lastonly P (f_cell s x) -> lastonly P (f_cell s' x).
Proof.
  intros n s s' P H N x L. destruct (H x) as (new & rest & E & F).
  apply (lastonly_prefix _ _ rest). rewrite <- E. clear E.
  induction F as [|e new [F _] Fs IH]; auto. cbn. apply lastonly_cons; auto.
Qed.

Lemma evolve_refl : forall n s s', f_cell s' = f_cell s -> evolve n s s'.
Proof. intros n s s' E x. exists [], []. rewrite E, app_nil_r. auto. Qed.

(** The others do not notice what happens to request [n]. *)
Lemma op_ok_other : forall n s s' m o k, evolve n s s' -> m <> n ->
  (forall b, buffer_of (f_what o) = Some b -> f_mem s' b = f_mem s b) ->
  (forall snap, k = DFlush snap -> snap (ser n) = false) ->
  op_ok s m o k -> op_ok s' m o k.
Proof.
  intros n s s' m [q id w ph] k Ev N Hm Hs H. unfold op_ok in *. cbn in *. destruct w as [off len b|off len b|]; cbn in Hm.
  - now rewrite (Hm b eq_refl).
  - rewrite (Hm b eq_refl). destruct H as (H1 & H2 & ap & E & H3). split; auto. split; auto. exists ap. split; auto.
    destruct ph as [| |ok]; auto. intros Eo. destruct (H3 Eo) as (H4 & H5). split; auto. intros Ho x.
    apply (evolve_last n s s'); auto. intros e -> E'. congruence.
  - destruct H as (snap & E & H). specialize (Hs _ E). exists snap. split; auto. destruct ph as [|mv since|ok]; auto.
    + intros x e He Hsn. destruct (evolve_in _ _ _ Ev _ _ He) as [[Hb _]|Hi]; eauto. congruence.
    + intros Eo x. apply (evolve_last n s s'); auto. intros e -> E'. congruence.
Qed.

Lemma snap_not : forall s d n o, sim s d -> f_op s n = Some o ->
  forall m c id snap, d_ops d m = Some (mk_dop c id (DFlush snap)) -> snap (ser n) = false.
Proof.
  intros s d n o I H m c id snap E. destruct (snap (ser n)) eqn:Es; auto.
  destruct (si_out _ _ I _ _ H) as (_ & D & _). rewrite (si_snap _ _ I _ _ _ _ E _ Es) in D. discriminate.
Qed.

(** Request [n] makes progress. *)
Lemma sim_progress : forall s d s' d' n o o' k k',
  sim s d -> f_op s n = Some o -> f_op s' = upd (f_op s) n (Some o') ->
  f_ch o' = f_ch o -> f_id o' = f_id o -> f_what o' = f_what o ->
  f_used s' = f_used s -> f_now s < f_now s' ->
  (forall m o2 b, m <> n -> f_op s m = Some o2 -> buffer_of (f_what o2) = Some b -> f_mem s' b = f_mem s b) ->
  evolve n s s' -> (forall x, f_cell s' x <> []) ->
  (forall x, exists rest, d_hist d' x = map entry (f_cell s' x) ++ rest) ->
  (forall m, m <> ser n -> d_ops d' m = d_ops d m) -> d_used d' = d_used d -> d_done d' = d_done d ->
  d_ops d (ser n) = Some (mk_dop (f_ch o) (f_id o) k) ->
  d_ops d' (ser n) = Some (mk_dop (f_ch o) (f_id o) k') ->
  (forall snap, k' = DFlush snap -> k' = k) -> op_ok s' n o' k' ->
  f_phase o <> Queued -> (forall ok, f_phase o <> Finished ok) -> f_sq s' = f_sq s ->
  (forall q, f_fin s' q ++ f_cq s' q = f_fin s q ++ f_cq s q \/
     (q = f_ch o /\ f_fin s' q ++ f_cq s' q = (f_fin s q ++ f_cq s q) ++ [n] /\ exists ok, f_phase o' = Finished ok)) ->
  sim s' d'.
Proof.
  intros s d s' d' n o o' k k' I Ho Ho' Ec Ei Ew Hu Hnow Hmem Ev Hne Hh Hops Hdu Hdd Hk Hk' Hsn Hok Hq1 Hq2 Hsq Hfin.
  assert (Hop : forall m o2, f_op s' m = Some o2 -> (m = n /\ o2 = o') \/ (m <> n /\ f_op s m = Some o2)).
  { intros m o2 E. rewrite Ho' in E. unfold upd in E. destruct (Nat.eqb_spec m n); [left|right; auto]. split; congruence. }
  assert (Hn' : f_op s' n = Some o') by (rewrite Ho'; apply upd_eq').
  constructor; auto.
  - rewrite Hu. apply (si_zero _ _ I).
  - intros x e He. destruct (evolve_in _ _ _ Ev _ _ He) as [[_ Ht]|Hi]; auto. apply (si_time _ _ I) in Hi. lia.
  - intros x e He. rewrite Hu. destruct (evolve_in _ _ _ Ev _ _ He) as [[-> _]|Hi]; [apply (si_out _ _ I _ _ Ho)|now apply (si_by _ _ I) in Hi].
  - intros m. rewrite Hu, Hdu. apply (si_used _ _ I).
  - intros m. rewrite Hdd, Hdu. apply (si_done _ _ I).
  - intros m op E. rewrite Hdu. destruct (Nat.eq_dec m (ser n)) as [->|N]; [apply (si_ops _ _ I _ _ Hk)|].
    rewrite Hops in E by auto. apply (si_ops _ _ I _ _ E).
  - intros m c i snap E. rewrite Hdd. destruct (Nat.eq_dec m (ser n)) as [->|N].
    + rewrite Hk' in E. injection E as <- <- E. rewrite (Hsn _ E) in E. subst k. apply (si_snap _ _ I _ _ _ _ Hk).
    + rewrite Hops in E by auto. apply (si_snap _ _ I _ _ _ _ E).
  - intros m o2 E. rewrite Hu, Hdu, Hdd. destruct (Hop _ _ E) as [(-> & ->)|(N & E')]; eapply (si_out _ _ I); eauto.
  - intros m o2 E. destruct (Hop _ _ E) as [(-> & ->)|(N & E')].
    + exists k'. rewrite Ec, Ei. auto.
    + destruct (si_op _ _ I _ _ E') as (k2 & Ek & Hk2). exists k2.
      rewrite Hops by (intros F; apply sinj in F; auto). split; auto.
      apply (op_ok_other n s); auto. { intros b. now apply (Hmem m o2). }
      intros snap ->. eapply snap_not; eauto.
  - intros m1 m2 o1 o2 b E1 E2 B1 B2.
    destruct (Hop _ _ E1) as [(-> & ->)|(N1 & E1')], (Hop _ _ E2) as [(-> & ->)|(N2 & E2')]; auto;
      rewrite ?Ew in *; eapply (si_buf _ _ I); eauto.
  - intros q. rewrite Hsq. destruct (si_sq _ _ I q) as (ND & H). split; auto. intros m Hm.
    destruct (H m Hm) as (o2 & E & Hc & Hp). exists o2. rewrite Ho'. unfold upd. destruct (Nat.eqb_spec m n) as [->|]; auto.
    rewrite Ho in E. injection E as <-. contradiction.
  - intros q. destruct (si_fin _ _ I q) as (ND & H).
    assert (Hold : forall m, In m (f_fin s q ++ f_cq s q) -> m <> n /\ exists o ok, f_op s' m = Some o /\ f_ch o = q /\ f_phase o = Finished ok).
    { intros m Hm. destruct (H m Hm) as (o2 & ok & E & Hc & Hp). assert (m <> n).
      { intros ->. rewrite Ho in E. injection E as <-. now apply Hq2 in Hp. }
      split; auto. exists o2, ok. rewrite Ho', upd_neq'; auto. }
    destruct (Hfin q) as [->|(-> & -> & ok & Hf)].
    + split; auto. intros m Hm. now apply Hold.
    + split.
      * apply (Permutation_NoDup (Permutation_cons_append _ _)). constructor; auto. intros F. now apply Hold in F as (F & _).
      * intros m Hm. apply in_app_or in Hm as [Hm|[<-|[]]]; [now apply Hold|]. exists o', ok. rewrite Ec. auto.
  - intros Hos x. rewrite Hdd. apply (evolve_last n s s'); auto.
    + intros e ->. destruct (si_out _ _ I _ _ Ho) as (_ & D & _). congruence.
    + apply (si_wt _ _ I Hos).
Qed.

(** A new request. *)
Definition new_kind (s : fdev V) (w : what) (r : req V) : Prop :=
  match w with
  | WRead off len b => r = RRead off len /\ off + len <= size /\ len <= length (f_mem s b) /\ unused s b
  | WWrite off len b => r = RWrite off (firstn len (f_mem s b)) /\ off + len <= size /\ len <= length (f_mem s b) /\ unused s b
  | WSync => r = RFlush
  end.

Lemma sim_add : forall s d s' n q id w r ph,
  sim s d -> f_used s n = false -> new_kind s w r ->
  f_op s' = upd (f_op s) n (Some (mk_fop q id w ph)) -> f_used s' = upd (f_used s) n true ->
  f_mem s' = f_mem s -> f_cell s' = f_cell s -> f_now s <= f_now s' ->
  (ph = Queued /\ f_sq s' = upd (f_sq s) q (f_sq s q ++ [n]) /\ f_fin s' = f_fin s /\ f_cq s' = f_cq s) \/
  ((ph = Finished false \/ (ph = Finished true /\ w = WSync /\ osync = true)) /\
   f_sq s' = f_sq s /\ f_fin s' = upd (f_fin s) q (f_fin s q ++ [n]) /\ f_cq s' = f_cq s) ->
  sim s' (dissue (ser n) q id r d).
Proof.
  intros s d s' n q id w r ph I Hu Hw Ho' Hu' Hm Hc Hnow Hq.
  destruct (si_used _ _ I _ Hu) as (Un & Uw).
  assert (Dn : d_done d (ser n) = false).
  { destruct (d_done d (ser n)) eqn:E; auto. apply (si_done _ _ I) in E. congruence. }
  assert (Hnone : f_op s n = None).
  { destruct (f_op s n) eqn:E; auto. apply (si_out _ _ I) in E as (E & _). congruence. }
  assert (Hop : forall m o2, f_op s' m = Some o2 -> (m = n /\ o2 = mk_fop q id w ph) \/ (m <> n /\ f_op s m = Some o2)).
  { intros m o2 E. rewrite Ho' in E. unfold upd in E. destruct (Nat.eqb_spec m n); [left|right; auto]. split; congruence. }
  assert (Hold : forall m o2, f_op s m = Some o2 -> m <> n /\ f_op s' m = Some o2).
  { intros m o2 E. assert (m <> n) by congruence. split; auto. now rewrite Ho', upd_neq'. }
  assert (Hd : forall m, m <> n -> d_ops (dissue (ser n) q id r d) (ser m) = d_ops d (ser m)).
  { intros m N. cbn. rewrite upd_neq'; auto. intros E. now apply sinj in E. }
  assert (Hused : forall m, f_used s m = true -> f_used s' m = true).
  { intros m E. rewrite Hu'. unfold upd. destruct (m =? n); auto. }
  assert (Hfin : forall q', listed s' q' (f_fin s q' ++ f_cq s q')).
  { intros q'. destruct (si_fin _ _ I q') as (ND & H). split; auto. intros m Hm'. destruct (H m Hm') as (o2 & ok & E & H2).
    exists o2, ok. split; auto. now apply Hold. }
  constructor.
  - apply Hused, I.
  - rewrite Hc. apply I.
  - rewrite Hc. apply I.
  - rewrite Hc. intros x e He. apply (si_time _ _ I) in He. lia.
  - rewrite Hc. intros x e He. apply (si_by _ _ I) in He. auto.
  - intros m E. rewrite Hu' in E. unfold upd in E. destruct (Nat.eqb_spec m n) as [|N]; [discriminate|].
    destruct (si_used _ _ I m E) as (U1 & U2). cbn [dissue d_used]. split.
    + rewrite upd_neq'; auto. intros F. now apply sinj in F.
    + intros Ew. rewrite upd_neq'; auto. unfold SyncProofs.ser. rewrite Ew. lia.
  - intros m E. cbn [dissue d_done d_used] in *. apply (si_done _ _ I) in E. unfold upd. destruct (m =? ser n); auto.
  - intros m o E. cbn [dissue d_used d_ops] in *. unfold upd in *. destruct (m =? ser n); auto. apply (si_ops _ _ I _ _ E).
  - intros m c i snap E m' Hm'. cbn [dissue d_done d_ops] in *. unfold upd in E. destruct (m =? ser n).
    + injection E as _ _ E. destruct r; try discriminate. cbn in E. now injection E as <-.
    + eapply (si_snap _ _ I); eauto.
  - intros m o2 E. cbn [dissue d_done d_used]. destruct (Hop _ _ E) as [(-> & ->)|(N & E')].
    + rewrite Hu', upd_eq'. split; auto. split; auto. intros Ew. rewrite upd_neq'; auto. unfold SyncProofs.ser. rewrite Ew. lia.
    + destruct (si_out _ _ I _ _ E') as (U & D & W). split; auto. split; auto.
      intros Ew. rewrite upd_neq'; auto. unfold SyncProofs.ser. rewrite Ew. lia.
  - intros m o2 E. destruct (Hop _ _ E) as [(-> & ->)|(N & E')].
    + exists (start_kind d r). cbn [dissue d_ops f_ch f_id]. rewrite upd_eq'. split; auto.
      unfold op_ok. cbn. rewrite Hm, Hc.
      assert (Hph : ph = Queued \/ ph = Finished false \/ (ph = Finished true /\ w = WSync /\ osync = true)).
      { destruct Hq as [(-> & _)|([->|H] & _)]; auto. }
      destruct w as [off len b|off len b|]; cbn in Hw.
      * destruct Hw as (-> & H1 & H2 & _). split; auto. split; auto. exists (fun _ => None). split; auto.
        destruct Hph as [->|[->|(_ & H & _)]]; auto; discriminate.
      * destruct Hw as (-> & H1 & H2 & _). split; auto. split; auto. exists (fun _ => false). split; auto.
        destruct Hph as [->|[->|(_ & H & _)]]; auto; discriminate.
      * subst r. exists (d_done d). split; auto. destruct Hph as [->|[->|(-> & _ & Hos)]]; auto; [discriminate|].
        intros _. apply (si_wt _ _ I Hos).
    + destruct (si_op _ _ I _ _ E') as (k & Ek & Hk). exists k. rewrite Hd by auto. split; auto.
      unfold op_ok in *. now rewrite Hm, Hc.
  - assert (Hun : forall m o2 b, f_op s m = Some o2 -> buffer_of (f_what o2) = Some b -> buffer_of w = Some b -> False).
    { intros m o2 b E B2 B. destruct w as [off len b'|off len b'|]; cbn in B, Hw; try discriminate; injection B as ->;
        destruct Hw as (_ & _ & _ & Hun); now apply (Hun m o2). }
    intros m1 m2 o1 o2 b E1 E2 B1 B2.
    destruct (Hop _ _ E1) as [(-> & ->)|(N1 & E1')], (Hop _ _ E2) as [(-> & ->)|(N2 & E2')]; auto; cbn in *.
    + exfalso. eauto.
    + exfalso. eauto.
    + eapply (si_buf _ _ I); eauto.
  - intros q'. destruct (si_sq _ _ I q') as (ND & H).
    assert (Hs : forall m, In m (f_sq s q') -> m <> n /\ exists o, f_op s' m = Some o /\ f_ch o = q' /\ f_phase o = Queued).
    { intros m Hm'. destruct (H m Hm') as (o2 & E & H2). destruct (Hold _ _ E). split; auto. exists o2. auto. }
    destruct Hq as [(-> & -> & _)|(_ & -> & _)].
    + unfold upd. destruct (Nat.eqb_spec q' q) as [->|N].
      * split. { apply (Permutation_NoDup (Permutation_cons_append _ _)). constructor; auto. intros F. now apply Hs in F as (F & _). }
        intros m Hm'. apply in_app_or in Hm' as [Hm'|[<-|[]]]; [now apply Hs|].
        exists (mk_fop q id w Queued). rewrite Ho', upd_eq'. auto.
      * split; auto. intros m Hm'. now apply Hs.
    + split; auto. intros m Hm'. now apply Hs.
  - intros q'. specialize (Hfin q'). destruct Hq as [(_ & _ & -> & ->)|(Hph & _ & -> & ->)]; auto.
    unfold upd. destruct (Nat.eqb_spec q' q) as [->|N]; auto. destruct Hfin as (ND & H).
    assert (P : Permutation (n :: f_fin s q ++ f_cq s q) ((f_fin s q ++ [n]) ++ f_cq s q)).
    { rewrite <- app_assoc. cbn. apply Permutation_middle. }
    split.
    + apply (Permutation_NoDup P). constructor; auto. intros F.
      destruct (si_fin _ _ I q) as (_ & H'). destruct (H' n F) as (? & ? & E & _). congruence.
    + intros m Hm'. apply (Permutation_in _ (Permutation_sym P)) in Hm' as [<-|Hm']; auto.
      assert (exists ok, ph = Finished ok) as (ok & ->) by (destruct Hph as [->|(-> & _)]; eauto).
      exists (mk_fop q id w (Finished ok)), ok. rewrite Ho', upd_eq'. auto.
  - intros Hos x. rewrite Hc. cbn [dissue d_done]. apply (si_wt _ _ I Hos).
Qed.

Lemma hist_cur : forall s d x, sim s d -> cur (d_hist d x) = cur_cell (f_cell s x).
Proof.
  intros s d x I. destruct (si_hist _ _ I x) as (rest & ->). assert (N := si_cell _ _ I x).
  destruct (f_cell s x); [congruence|]. reflexivity.
Qed.

(** A request is reported and forgotten. *)
Lemma sim_report : forall s d n o ok,
  sim s d -> f_op s n = Some o -> f_phase o = Finished ok ->
  (forall q, ~ In n (f_fin s q ++ f_cq s q)) ->
  exists es d', drun size d es = Some (d', flat_map (ren wt) (report s n)) /\ sim (forget n s) d'.
Proof.
  intros s d n [q id w ph] ok I Ho Hp Hl. cbn in Hp. subst ph.
  destruct (si_op _ _ I _ _ Ho) as (k & Ek & Hk). cbn in Ek.
  destruct (si_out _ _ I _ _ Ho) as (On & Dn & Wn).
  assert (Hop : forall m o2, f_op (forget n s) m = Some o2 -> m <> n /\ f_op s m = Some o2).
  { intros m o2 E. cbn in E. unfold upd in E. destruct (Nat.eqb_spec m n); [discriminate|auto]. }
  assert (Hkeep : forall m, m <> n -> f_op (forget n s) m = f_op s m) by (intros; cbn; now apply upd_neq').
  (* what the disk looks like afterwards *)
  assert (Key : forall d',
    (forall x, exists rest, d_hist d' x = map entry (f_cell s x) ++ rest) ->
    (forall m, m <> ser n -> d_ops d' m = d_ops d m) -> d_ops d' (ser n) = None ->
    (forall m, d_used d' m = d_used d m \/ (wt = true /\ m = 2 * n + 1)) ->
    (forall m, m <> 2 * n + 1 \/ wt = false -> d_used d' m = d_used d m) ->
    (forall m, d_done d m = true -> d_done d' m = true) ->
    (forall m, d_done d' m = true -> d_done d m = true \/ m = ser n) ->
    (wt = true -> forall m, d_used d' m = true \/ d_used d' m = d_used d m) ->
    (osync = true -> forall x, lastonly (fun e => d_done d' (ser (ce_by e)) = true) (f_cell s x)) ->
    sim (forget n s) d').
  { intros d' Hh Hd Hon Hdu Hdu' Hd1 Hd2 Hwu Hw.
    assert (Sn : forall m c i snap, d_ops d' m = Some (mk_dop c i (DFlush snap)) -> d_ops d m = Some (mk_dop c i (DFlush snap))).
    { intros m c i snap E. destruct (Nat.eq_dec m (ser n)) as [->|N]; [congruence|]. now rewrite Hd in E. }
    assert (Um : forall m, d_used d m = true -> d_used d' m = true).
    { intros m E. destruct (Nat.eq_dec m (2 * n + 1)) as [->|N]; [|rewrite Hdu'; auto].
      destruct wt eqn:Ew; [destruct (Hwu eq_refl (2 * n + 1)) as [H|H]; congruence|]. rewrite Hdu'; auto. }
    constructor; try apply I; auto.
    - intros m Hm. destruct (si_used _ _ I m Hm) as (U1 & U2). split.
      + destruct (Hdu (ser m)) as [->|(W & E)]; auto. unfold SyncProofs.ser in E. rewrite W in E. lia.
      + intros W. destruct (Hdu (2 * m + 1)) as [->|(_ & E)]; auto. assert (m = n) by lia. cbn in Hm. congruence.
    - intros m Hm. destruct (Hd2 m Hm) as [E| ->].
      + apply (si_done _ _ I) in E. now apply Um.
      + apply Um, (si_ops _ _ I _ _ Ek).
    - intros m o2 E. apply Um. destruct (Nat.eq_dec m (ser n)) as [->|N]; [congruence|].
      rewrite Hd in E by auto. apply (si_ops _ _ I _ _ E).
    - intros m c i snap E m' Hm'. apply Sn in E. apply Hd1. eapply (si_snap _ _ I); eauto.
    - intros m o2 E. apply Hop in E as (N & E). destruct (si_out _ _ I _ _ E) as (U & D & W). split; auto. split.
      + destruct (d_done d' (ser m)) eqn:E'; auto. apply Hd2 in E' as [E'|E']; [congruence|]. apply sinj in E'. contradiction.
      + intros Hw'. rewrite Hdu'; auto. left. lia.
    - intros m o2 E. apply Hop in E as (N & E). destruct (si_op _ _ I _ _ E) as (k0 & Ek0 & Hk0).
      exists k0. rewrite Hd by (intros E'; now apply sinj in E'). split; auto.
    - intros m1 m2 o1 o2 b E1 E2. apply Hop in E1 as (_ & E1). apply Hop in E2 as (_ & E2). eapply (si_buf _ _ I); eauto.
    - intros q'. destruct (si_sq _ _ I q') as (ND & H). split; auto. intros m Hm. destruct (H m Hm) as (o2 & E & H2).
      exists o2. rewrite Hkeep; auto. intros ->. rewrite Ho in E. injection E as <-. now destruct H2.
    - intros q'. destruct (si_fin _ _ I q') as (ND & H). split; auto. intros m Hm. destruct (H m Hm) as (o2 & ok2 & E & H2).
      exists o2, ok2. rewrite Hkeep; auto. intros ->. now apply (Hl q'). }
  assert (Hrep : report s n = [TDone n q id ok (match w with WRead _ len b => if ok then map Some (firstn len (f_mem s b)) else [] | _ => [] end)]).
  { unfold report. now rewrite Ho. }
  set (data := match w with WRead _ len b => if ok then map Some (firstn len (f_mem s b)) else [] | _ => [] end) in Hrep.
  (* the disk reports it *)
  set (d1 := match k with
             | DWrite _ _ _ => if ok then mk_disk (upd (d_ops d) (ser n) None) (d_used d) (d_hist d) (upd (d_done d) (ser n) true)
                               else finish (ser n) d
             | DRead _ _ _ => finish (ser n) d
             | DFlush snap => if ok then mk_disk (upd (d_ops d) (ser n) None) (d_used d) (fun x => trim snap (d_hist d x)) (d_done d)
                              else finish (ser n) d
             end).
  assert (E1 : dstep size d (DDone (ser n) ok) = Some (d1, [TDone (ser n) q id ok data])).
  { cbn. rewrite Ek. unfold op_ok in Hk. cbn in Hk. destruct w as [off len b|off len b|].
    - destruct Hk as (H1 & H2 & got & -> & Hk). subst data d1. destruct ok; [|reflexivity]. specialize (Hk eq_refl).
      replace (in_range_all _ _ _ _) with true.
      + f_equal. f_equal. f_equal. f_equal. unfold read_data. clear - Hk H2. revert got Hk H2.
        generalize (f_mem s b) as l. induction len as [|len IH]; intros [|v l] got Hk H2; cbn in *; auto; try lia.
        rewrite (Hk 0) by lia. cbn. f_equal. rewrite <- seq_shift, map_map. apply (IH l (fun i => got (S i))); [|lia].
        intros i Hi. apply (Hk (S i)). lia.
      + symmetry. apply forallb_forall. intros i Hr. apply in_seq in Hr. rewrite Hk by lia.
        destruct (nth_error (f_mem s b) i) eqn:E; [now rewrite orb_true_r|]. apply nth_error_None in E. lia.
    - destruct Hk as (H1 & H2 & ap & -> & Hk). subst data d1. destruct ok; [|reflexivity]. destruct (Hk eq_refl) as (Hk1 & _).
      replace (in_range_all _ _ _ _) with true; auto.
      symmetry. apply forallb_forall. intros i Hr. apply in_seq in Hr. rewrite firstn_length in Hr. rewrite Hk1 by lia. apply orb_true_r.
    - destruct Hk as (snap & -> & Hk). subst data d1. destruct ok; reflexivity. }
  assert (H1 : forall x, exists rest, d_hist d1 x = map entry (f_cell s x) ++ rest).
  { intros x. destruct (si_hist _ _ I x) as (rest & E). subst d1. destruct k as [? ? ?|? ? ?|snap]; cbn; eauto.
    - destruct ok; cbn; eauto.
    - destruct ok; cbn; eauto. rewrite E. apply trim_prefix; [|apply I].
      unfold op_ok in Hk. cbn in Hk. destruct w as [off len b|off len b|].
      + destruct Hk as (_ & _ & ? & F & _). discriminate.
      + destruct Hk as (_ & _ & ? & F & _). discriminate.
      + destruct Hk as (snap' & F & Hk). injection F as <-. now apply Hk. }
  assert (Ho1 : forall m, m <> ser n -> d_ops d1 m = d_ops d m).
  { intros m N. subst d1. destruct k, ok; cbn; now rewrite upd_neq'. }
  assert (Hn1 : d_ops d1 (ser n) = None).
  { subst d1. destruct k, ok; cbn; now rewrite upd_eq'. }
  assert (Hu1 : d_used d1 = d_used d) by (subst d1; destruct k, ok; reflexivity).
  assert (Hd1 : forall m, d_done d m = true -> d_done d1 m = true).
  { intros m E. subst d1. destruct k, ok; cbn; auto. unfold upd. destruct (m =? ser n); auto. }
  assert (Hd2 : forall m, d_done d1 m = true -> d_done d m = true \/ m = ser n).
  { intros m E. subst d1. destruct k, ok; cbn in E; auto. unfold upd in E. destruct (Nat.eqb_spec m (ser n)); auto. }
  assert (Hw1 : osync = true -> forall x, lastonly (fun e => d_done d1 (ser (ce_by e)) = true) (f_cell s x)).
  { intros Hw x. assert (Hold := si_wt _ _ I Hw x).
    destruct ok; [|subst d1; destruct k; exact Hold].
    destruct k as [off len got|off dat ap|snap]; try exact Hold.
    unfold op_ok in Hk. cbn in Hk. destruct w as [off' len b|off' len b|].
    + destruct Hk as (_ & _ & ? & F & _). discriminate.
    + destruct Hk as (_ & _ & ap' & _ & Hk). destruct (Hk eq_refl) as (_ & Hk'). specialize (Hk' Hw x). subst d1. cbn.
      intros a e c E Hd. unfold upd in Hd. destruct (Nat.eqb_spec (ser (ce_by e)) (ser n)) as [Es|Ns].
      * apply sinj in Es. now apply (Hk' a e c).
      * now apply (Hold a e c).
    + destruct Hk as (? & F & _). discriminate. }
  rewrite Hrep. destruct wt eqn:Ew.
  - assert (Hu2 : d_used d (2 * n + 1) = false) by auto.
    destruct ok.
    + set (d2 := dissue (2 * n + 1) q id RFlush d1).
      assert (En : 2 * n + 1 <> 2 * n) by lia.
      set (d3 := mk_disk (upd (d_ops d2) (2 * n + 1) None) (d_used d2) (fun x => trim (d_done d1) (d_hist d1 x)) (d_done d1)).
      exists [DDone (2 * n) true; DIssue (2 * n + 1) q id RFlush; DDone (2 * n + 1) true], d3. split.
      * cbn [drun]. unfold SyncProofs.ser in E1. rewrite E1. cbn [dstep]. rewrite Hu1, Hu2. fold d2.
        cbn [d2 dissue d_ops]. rewrite upd_eq'. reflexivity.
      * apply Key; subst d3 d2; cbn [d_hist d_ops d_used d_done dissue].
        -- intros x. destruct (H1 x) as (rest & E). rewrite E. apply trim_prefix; [|apply I]. apply (Hw1 (wt_osync eq_refl) x).
        -- intros m N. unfold upd. destruct (Nat.eqb_spec m (2 * n + 1)) as [->|]; [|apply Ho1; auto].
           destruct (d_ops d (2 * n + 1)) eqn:E; auto. apply (si_ops _ _ I) in E. congruence.
        -- unfold upd, SyncProofs.ser in *. replace (2 * n =? 2 * n + 1) with false by (symmetry; apply Nat.eqb_neq; auto). exact Hn1.
        -- intros m. unfold upd. rewrite Hu1. destruct (Nat.eqb_spec m (2 * n + 1)); auto.
        -- intros m [N|N]; [|discriminate]. rewrite upd_neq' by auto. now rewrite Hu1.
        -- exact Hd1.
        -- exact Hd2.
        -- intros _ m. unfold upd. rewrite Hu1. destruct (m =? 2 * n + 1); auto.
        -- exact Hw1.
    + exists [DDone (2 * n) false], d1. split.
      * cbn [drun]. unfold SyncProofs.ser in E1. rewrite E1. reflexivity.
      * apply Key; auto; try (intros; rewrite Hu1; auto).
  - exists [DDone n ok], d1. split.
    + cbn [drun]. unfold SyncProofs.ser in E1. rewrite E1. reflexivity.
    + apply Key; auto; try (intros; rewrite Hu1; auto).
Qed.

Lemma sim_report_all : forall q l s d, sim s d -> f_fin s q = [] -> f_cq s q = [] -> listed s q l ->
  exists es d', drun size d es = Some (d', flat_map (ren wt) (snd (report_all l s))) /\ sim (fst (report_all l s)) d'.
Proof.
  intros q l. induction l as [|n l IH]; intros s d I Hf Hc (ND & HL).
  - exists [], d. auto.
  - destruct (HL n) as (o & ok & Eo & Ec & Ep); [now left|]. inversion ND as [|? ? Nin ND']; subst.
    destruct (sim_report s d n o ok I Eo Ep) as (es1 & d1 & R1 & I1).
    { intros q' H. destruct (si_fin _ _ I q') as (_ & Hq). destruct (Hq n H) as (o2 & ? & E2 & Hc2 & _).
      assert (Eq : q' = f_ch o) by congruence. rewrite Eq, Hf, Hc in H. destruct H. }
    destruct (IH (forget n s) d1 I1) as (es2 & d2 & R2 & I2); auto.
    { split; auto. intros m Hm. destruct (HL m) as (o2 & ok2 & E2 & H2); [now right|]. exists o2, ok2.
      cbn. rewrite upd_neq'; auto. intros ->. contradiction. }
    cbn [report_all]. destruct (report_all l (forget n s)) as [s' t] eqn:E. cbn [fst snd] in *.
    exists (es1 ++ es2), d2. split; auto. rewrite flat_map_app. eapply drun_app; eauto.
Qed.

Lemma sim_crash : forall s d sv, sim s d ->
  exists sv' d', (forall x, sv' x < length (f_cell s x)) /\
    drun size d [DCrash sv'] = Some (d', flat_map (ren wt) [TCrash]) /\
    sim (mk_fdev (fun _ => None) (f_used s) (fun _ => []) (fun _ => []) (fun _ => []) (fun _ => [])
            (fun x => crashed_cells (f_cell s x) (sv x)) (f_len s) (S (f_now s))) d'.
Proof.
  intros s d sv I.
  set (sv' := fun x => if sv x <? length (f_cell s x) then sv x else 0).
  exists sv', (mk_disk (fun _ => None) (d_used d) (fun x => crashed (d_hist d x) (sv' x)) (d_done d)). split; [|split].
  - intros x. unfold sv'. destruct (Nat.ltb_spec (sv x) (length (f_cell s x))); auto.
    assert (N := si_cell _ _ I x). destruct (f_cell s x); [congruence|cbn; lia].
  - cbn. unfold ren. now destruct wt.
  - assert (Hc : forall x, exists v, crashed_cells (f_cell s x) (sv x) = [mk_cell 0 0 v] /\ crashed (d_hist d x) (sv' x) = [(0, v)]).
    { intros x. destruct (si_hist _ _ I x) as (rest & E). rewrite E. unfold crashed_cells, crashed, sv'.
      destruct (Nat.ltb_spec (sv x) (length (f_cell s x))) as [Hl|Hl].
      - destruct (nth_error (f_cell s x) (sv x)) as [e|] eqn:En. 2:{ apply nth_error_None in En. lia. }
        rewrite nth_error_app1 by (rewrite map_length; lia). rewrite nth_error_map, En. cbn. eauto.
      - replace (nth_error (f_cell s x) (sv x)) with (@None (cell V)) by (symmetry; now apply nth_error_None).
        assert (N := si_cell _ _ I x). destruct (f_cell s x) as [|e l]; [congruence|]. cbn. eauto. }
    assert (Hin : forall x e, In e (crashed_cells (f_cell s x) (sv x)) -> ce_by e = 0 /\ ce_time e = 0).
    { intros x e He. destruct (Hc x) as (v & E & _). rewrite E in He. destruct He as [<-|[]]. auto. }
    constructor; cbn [f_op f_used f_sq f_fin f_cq f_mem f_cell f_len f_now d_hist d_ops d_used d_done]; try apply I; auto; try discriminate.
    + intros x. destruct (Hc x) as (v & -> & ->). exists []. cbn. unfold SyncProofs.entry, SyncProofs.ser. cbn. now destruct wt.
    + intros x. destruct (Hc x) as (v & -> & _). discriminate.
    + intros x e He. apply Hin in He as [_ ->]. lia.
    + intros x e He. apply Hin in He as [-> _]. apply (si_zero _ _ I).
    + intros q. split; [constructor|intros n []].
    + intros q. split; [constructor|intros n []].
    + intros _ x. destruct (Hc x) as (v & -> & _). apply lastonly_single.
Qed.

(** Only time passes, or something nobody depends on changes. *)
Lemma sim_same : forall s d s', sim s d ->
  f_op s' = f_op s -> f_used s' = f_used s -> f_sq s' = f_sq s -> (forall q, f_fin s' q ++ f_cq s' q = f_fin s q ++ f_cq s q \/ f_fin s' q ++ f_cq s' q = []) ->
  (forall n o b, f_op s n = Some o -> buffer_of (f_what o) = Some b -> f_mem s' b = f_mem s b) ->
  f_cell s' = f_cell s -> f_now s <= f_now s' -> sim s' d.
Proof.
  intros s d s' I Ho Hu Hsq Hfin Hm Hc Hn. constructor; rewrite ?Ho, ?Hu, ?Hsq, ?Hc; try apply I.
  - intros x e He. apply (si_time _ _ I) in He. lia.
  - intros n o E. destruct (si_op _ _ I _ _ E) as (k & Ek & Hk). exists k. split; auto.
    unfold op_ok in *. rewrite Hc. specialize (Hm n o). destruct (f_what o) as [off len b|off len b|]; cbn in Hm; rewrite ?(Hm b) by auto; exact Hk.
  - intros q. destruct (Hfin q) as [->| ->]; [|split; [constructor|intros ? []]].
    destruct (si_fin _ _ I q) as (ND & H). split; auto. intros n Hn'. rewrite Ho. auto.
Qed.

Lemma is_in_spec : forall n l, is_in n l = true <-> In n l.
Proof.
  intros n l. unfold is_in. rewrite existsb_exists. split.
  - intros (x & H & E). apply Nat.eqb_eq in E. now subst.
  - intros H. exists n. split; auto. apply Nat.eqb_refl.
Qed.

Lemma sim_submit : forall s d q k, sim s d ->
  sim (mk_fdev (fun n => if is_in n (firstn k (f_sq s q)) then option_map (started (f_now s)) (f_op s n) else f_op s n) (f_used s)
            (upd (f_sq s) q (skipn k (f_sq s q))) (f_fin s) (f_cq s) (f_mem s) (f_cell s) (f_len s) (S (f_now s))) d.
Proof.
  intros s d q k I. set (l := firstn k (f_sq s q)).
  assert (Hl : forall n, In n l -> exists o, f_op s n = Some o /\ f_ch o = q /\ f_phase o = Queued).
  { intros n H. apply (si_sq _ _ I q). rewrite <- (firstn_skipn k). apply in_or_app. now left. }
  set (ops := fun n => if is_in n l then option_map (started (f_now s)) (f_op s n) else f_op s n).
  assert (Hop : forall n o, ops n = Some o ->
    exists o0, f_op s n = Some o0 /\ f_ch o = f_ch o0 /\ f_id o = f_id o0 /\ f_what o = f_what o0 /\
      (o = o0 \/ (f_phase o0 = Queued /\ f_phase o = Running (fun _ => false) (f_now s)))).
  { intros n o E. unfold ops in E. destruct (is_in n l) eqn:Ei.
    - apply is_in_spec in Ei. destruct (Hl n Ei) as (o0 & E0 & _ & Hp). rewrite E0 in E. cbn in E. injection E as <-.
      exists o0. repeat split; auto.
    - exists o. auto 6. }
  assert (Hnot : forall n o ok, f_op s n = Some o -> f_phase o = Finished ok -> ops n = Some o).
  { intros n o ok E Hp. unfold ops. destruct (is_in n l) eqn:Ei; auto.
    apply is_in_spec in Ei. destruct (Hl n Ei) as (o0 & E0 & _ & Hq). congruence. }
  constructor; cbn [f_op f_used f_sq f_fin f_cq f_mem f_cell f_len f_now]; try apply I.
  - intros x e He. apply (si_time _ _ I) in He. lia.
  - intros n o E. destruct (Hop _ _ E) as (o0 & E0 & _). apply (si_out _ _ I _ _ E0).
  - intros n o E. destruct (Hop _ _ E) as (o0 & E0 & -> & -> & Ew & Hc).
    destruct (si_op _ _ I _ _ E0) as (kd & Ek & Hk). exists kd. split; auto.
    destruct Hc as [->|(Hq & Hr)]; [exact Hk|].
    unfold op_ok in *. rewrite Ew, Hr. rewrite Hq in Hk. destruct (f_what o0) as [off len b|off len b|]; cbn [f_mem f_cell].
    + destruct Hk as (H1 & H2 & got & -> & _). split; auto. split; auto. exists got. split; auto. discriminate.
    + destruct Hk as (H1 & H2 & ap & -> & H). split; auto. split; auto. exists ap. auto.
    + destruct Hk as (snap & -> & _). exists snap. split; auto. intros x e He _. now apply (si_time _ _ I) in He.
  - intros n m o o' b E1 E2 B1 B2. destruct (Hop _ _ E1) as (o1 & F1 & _ & _ & W1 & _). destruct (Hop _ _ E2) as (o2 & F2 & _ & _ & W2 & _).
    rewrite W1 in B1. rewrite W2 in B2. eapply (si_buf _ _ I); eauto.
  - intros q'. destruct (si_sq _ _ I q') as (ND & H).
    unfold upd. destruct (Nat.eqb_spec q' q) as [->|N].
    + rewrite <- (firstn_skipn k) in ND. fold l in ND.
      assert (Hd : forall n, In n (skipn k (f_sq s q)) -> ~ In n l).
      { intros n H1 H2. clear - ND H1 H2. induction l as [|a l' IH]; [destruct H2|]. cbn in ND. inversion ND; subst.
        destruct H2 as [->|H2]; auto. apply H3. apply in_or_app. auto. }
      split. { clear - ND. induction l as [|a l' IH]; auto. cbn in ND. inversion ND; auto. }
      intros n Hn. destruct (H n) as (o & E & H2). { rewrite <- (firstn_skipn k). apply in_or_app. auto. }
      exists o. split; auto. unfold ops. destruct (is_in n l) eqn:Ei; auto. apply is_in_spec in Ei. now apply Hd in Hn.
    + split; auto. intros n Hn. destruct (H n Hn) as (o & E & Hc & Hp). exists o. split; auto. unfold ops.
      destruct (is_in n l) eqn:Ei; auto. apply is_in_spec in Ei. destruct (Hl n Ei) as (o0 & E0 & Hc0 & _). congruence.
  - intros q'. destruct (si_fin _ _ I q') as (ND & H). split; auto. intros n Hn. destruct (H n Hn) as (o & ok & E & Hc & Hp).
    exists o, ok. cbn [f_op]. split; eauto.
Qed.

Lemma firstn_nth : forall {A} n (l : list A) i, i < n -> nth_error (firstn n l) i = nth_error l i.
Proof. intros A n. induction n as [|n IH]; intros [|x l] [|i] H; cbn; auto; try lia. apply IH. lia. Qed.

Lemma set_nth_firstn_other : forall {A} (i : nat) (v : A) l j, j <> i -> nth_error (set_nth i v l) j = nth_error l j.
Proof. intros. apply nth_error_set_nth_neq. auto. Qed.

Lemma sim_move_read : forall s d n q id off len b mv since i v, sim s d ->
  f_op s n = Some (mk_fop q id (WRead off len b) (Running mv since)) ->
  cur_cell (f_cell s (off + i)) = Some v -> i < len -> i < length (f_mem s b) ->
  exists es d', drun size d es = Some (d', []) /\
   sim (mk_fdev (upd (f_op s) n (Some (mk_fop q id (WRead off len b) (Running (upd mv i true) since)))) (f_used s)
                  (f_sq s) (f_fin s) (f_cq s) (upd (f_mem s) b (set_nth i v (f_mem s b))) (f_cell s) (f_len s) (S (f_now s))) d'.
Proof.
  intros s d n q id off len b mv since i v I Ho Hv Hi Hb.
  destruct (si_op _ _ I _ _ Ho) as (k & Ek & Hk). cbn in Ek. unfold op_ok in Hk. cbn [f_what f_phase] in Hk.
  destruct Hk as (H1 & H2 & got & -> & Hk).
  set (k0 := DRead off len got). set (k' := DRead off len (upd got i (cur (d_hist d (off + i))))).
  exists [DSample (ser n) i], (set_kind (ser n) (mk_dop q id (DRead off len got)) k' d). split.
  - cbn [drun dstep]. rewrite Ek. replace ((off + i <? size) && (i <? len)) with true by lia. reflexivity.
  - eapply (sim_progress s d _ _ n _ (mk_fop q id (WRead off len b) (Running (upd mv i true) since)) k0 k' I Ho);
      cbn [f_used f_now f_mem f_cell f_fin f_cq f_sq f_op f_ch f_id f_what f_phase set_kind d_hist d_used d_done d_ops d_ch d_id]; auto.
    + intros m o2 b' N E B. rewrite upd_neq'; auto. intros ->. apply N. eapply (si_buf _ _ I); eauto.
    + now apply evolve_refl.
    + apply I.
    + apply I.
    + intros m N. now rewrite upd_neq'.
    + now rewrite upd_eq'.
    + discriminate.
    + unfold op_ok. cbn [f_what f_phase f_mem]. rewrite upd_eq', set_nth_length. split; auto. split; auto.
      eexists. split; [reflexivity|]. intros j Hj Hm. unfold upd in Hm. unfold upd. destruct (Nat.eqb_spec j i) as [->|N].
      * rewrite nth_error_set_nth_eq by auto. now rewrite (hist_cur s).
      * rewrite nth_error_set_nth_neq by auto. now apply Hk.
    + discriminate.
    + discriminate.
Qed.

Lemma sim_move_write : forall s d n q id off len b mv since i v, sim s d ->
  f_op s n = Some (mk_fop q id (WWrite off len b) (Running mv since)) ->
  nth_error (f_mem s b) i = Some v -> i < len -> mv i = false ->
  exists es d', drun size d es = Some (d', []) /\
   sim (mk_fdev (upd (f_op s) n (Some (mk_fop q id (WWrite off len b) (Running (upd mv i true) since)))) (f_used s)
                  (f_sq s) (f_fin s) (f_cq s) (f_mem s)
                  (upd (f_cell s) (off + i) (mk_cell (f_now s) n v :: f_cell s (off + i)))
                  (Nat.max (f_len s) (off + i + 1)) (S (f_now s))) d'.
Proof.
  intros s d n q id off len b mv since i v I Ho Hv Hi Hm.
  destruct (si_op _ _ I _ _ Ho) as (k & Ek & Hk). cbn in Ek. unfold op_ok in Hk. cbn [f_what f_phase] in Hk.
  destruct Hk as (H1 & H2 & ap & -> & Hk).
  set (k0 := DWrite off (firstn len (f_mem s b)) ap). set (k' := DWrite off (firstn len (f_mem s b)) (upd ap i true)).
  exists [DApply (ser n) i], (mk_disk (upd (d_ops d) (ser n) (Some (mk_dop q id k')))
                        (d_used d) (upd (d_hist d) (off + i) ((ser n, v) :: d_hist d (off + i))) (d_done d)). split.
  - cbn [drun dstep]. rewrite Ek, firstn_nth, Hv by auto. rewrite Hk, Hm by auto.
    replace (off + i <? size) with true by lia. reflexivity.
  - eapply (sim_progress s d _ _ n _ (mk_fop q id (WWrite off len b) (Running (upd mv i true) since)) k0 k' I Ho);
      cbn [f_used f_now f_mem f_cell f_fin f_cq f_sq f_op f_ch f_id f_what f_phase d_hist d_used d_done d_ops d_ch d_id]; auto.
    + intros x. cbn [f_cell f_now]. unfold upd. destruct (Nat.eqb_spec x (off + i)) as [->|N].
      * exists [mk_cell (f_now s) n v], []. rewrite app_nil_r. split; auto.
      * exists [], []. rewrite app_nil_r. auto.
    + intros x. unfold upd. destruct (x =? off + i); [discriminate|apply I].
    + intros x. unfold upd. destruct (Nat.eqb_spec x (off + i)) as [->|N]; [|apply I].
      destruct (si_hist _ _ I (off + i)) as (rest & ->). exists rest. reflexivity.
    + intros m N. now rewrite upd_neq'.
    + now rewrite upd_eq'.
    + discriminate.
    + unfold op_ok. cbn [f_what f_phase f_mem]. split; auto. split; auto. eexists. split; [reflexivity|].
      intros j Hj. unfold upd. destruct (j =? i); auto.
    + discriminate.
    + discriminate.
Qed.

Lemma all_moved_spec : forall mv k, all_moved mv k = true -> forall i, i < k -> mv i = true.
Proof. intros mv k H i Hi. unfold all_moved in H. rewrite forallb_forall in H. apply H, in_seq. lia. Qed.

Lemma sim_complete : forall s d n q id w mv since r, sim s d ->
  f_op s n = Some (mk_fop q id w (Running mv since)) -> possible w mv r = true -> (forall k, r <> Short k) ->
  sim (mk_fdev (upd (f_op s) n (Some (mk_fop q id w (Finished (success r))))) (f_used s)
                (f_sq s) (f_fin s) (upd (f_cq s) q (f_cq s q ++ [n])) (f_mem s)
                (fun x => stored osync n since w r (f_cell s x)) (f_len s) (S (f_now s))) d.
Proof.
  intros s d n q id w mv since r I Ho Hp Hr.
  destruct (si_op _ _ I _ _ Ho) as (k & Ek & Hk). cbn in Ek. unfold op_ok in Hk. cbn [f_what f_phase] in Hk.
  assert (Hst : forall x, exists rest, f_cell s x = stored osync n since w r (f_cell s x) ++ rest).
  { intros x. unfold stored. destruct w; try (exists []; now rewrite app_nil_r).
    - destruct (osync && success r); [apply settle_prefix|exists []; now rewrite app_nil_r].
    - destruct (success r); [apply settle_prefix|exists []; now rewrite app_nil_r]. }
  eapply (sim_progress s d _ d n _ (mk_fop q id w (Finished (success r))) k k I Ho);
    cbn [f_used f_now f_mem f_cell f_fin f_cq f_sq f_op f_ch f_id f_what f_phase]; auto.
  - intros x. destruct (Hst x) as (rest & E). exists [], rest. split; auto.
  - intros x E. apply (si_cell _ _ I x). unfold stored in E. destruct w; auto.
    + destruct (osync && success r); auto. destruct (f_cell s x) as [|e l]; auto. exfalso. revert E. now apply settle_nonempty.
    + destruct (success r); auto. destruct (f_cell s x) as [|e l]; auto. exfalso. revert E. now apply settle_nonempty.
  - intros x. destruct (si_hist _ _ I x) as (rest & E). destruct (Hst x) as (rest' & E').
    exists (map entry rest' ++ rest). rewrite E, E' at 1. rewrite map_app, app_assoc. reflexivity.
  - unfold op_ok. cbn [f_what f_phase f_mem f_cell]. destruct w as [off len b|off len b|].
    + destruct Hk as (H1 & H2 & got & -> & Hk). split; auto. split; auto. exists got. split; auto.
      destruct r as [|k|]; [|now destruct (Hr k)|discriminate]. intros _ i Hi. apply Hk; auto. now apply (all_moved_spec mv len).
    + destruct Hk as (H1 & H2 & ap & -> & Hk). split; auto. split; auto. exists ap. split; auto.
      destruct r as [|k|]; [|now destruct (Hr k)|discriminate]. intros _. split.
      * intros i Hi. rewrite Hk by auto. now apply (all_moved_spec mv len).
      * intros Hos x. cbn. rewrite Hos. cbn. apply settle_last. intros e _ ->. apply Nat.eqb_refl.
    + destruct Hk as (snap & -> & Hk). exists snap. split; auto.
      destruct r as [|k|]; [|now destruct (Hr k)|discriminate]. intros _ x. cbn. apply settle_last. intros e He Hs.
      apply Nat.ltb_lt. eauto.
  - discriminate.
  - discriminate.
  - intros q'. unfold upd. destruct (Nat.eqb_spec q' q) as [->|N]; auto. right. split; auto. rewrite app_assoc. eauto.
Qed.

Lemma ren_issue : forall n q id (r : req V), ren wt (TIssue n q id r) = [TIssue (ser n) q id r].
Proof. intros. unfold ren, SyncProofs.ser. now destruct wt. Qed.

Lemma sim_issue : forall s d s' n q id w r ph,
  sim s d -> f_used s n = false -> new_kind s w r ->
  f_op s' = upd (f_op s) n (Some (mk_fop q id w ph)) -> f_used s' = upd (f_used s) n true ->
  f_mem s' = f_mem s -> f_cell s' = f_cell s -> f_now s <= f_now s' ->
  (ph = Queued /\ f_sq s' = upd (f_sq s) q (f_sq s q ++ [n]) /\ f_fin s' = f_fin s /\ f_cq s' = f_cq s) \/
  ((ph = Finished false \/ (ph = Finished true /\ w = WSync /\ osync = true)) /\
   f_sq s' = f_sq s /\ f_fin s' = upd (f_fin s) q (f_fin s q ++ [n]) /\ f_cq s' = f_cq s) ->
  exists es d', drun size d es = Some (d', flat_map (ren wt) [TIssue n q id r]) /\ sim s' d'.
Proof.
  intros s d s' n q id w r ph I Hu. intros. exists [DIssue (ser n) q id r], (dissue (ser n) q id r d). split.
  - cbn [drun dstep]. destruct (si_used _ _ I _ Hu) as (-> & _). cbn [flat_map]. now rewrite ren_issue.
  - eapply sim_add; eauto.
Qed.

Lemma sim_push : forall s d n q id w r,
  sim s d -> f_used s n = false -> new_kind s w r ->
  exists es d', drun size d es = Some (d', flat_map (ren wt) [TIssue n q id r]) /\ sim (push entries n q id w s) d'.
Proof.
  intros s d n q id w r I Hu Hw. unfold push. destruct (length (f_sq s q) <? entries).
  - eapply (sim_issue s d _ n q id w r Queued); cbn; auto.
  - eapply (sim_issue s d _ n q id w r (Finished false)); cbn; auto 6.
Qed.

Lemma sim_step : forall s d e s' t, sim s d -> caller_ok per nsec s e -> (forall n k, e <> FComplete n (Short k)) ->
  step s e = Some (s', t) ->
  exists es d', drun size d es = Some (d', flat_map (ren wt) t) /\ sim s' d'.
Proof.
  intros s d e s' t I C Ns H. destruct e as [b data|n q id soff cnt b|n q id soff cnt b|n q id|q k|n i|n r|q|sv]; cbn [fstep] in H.
  - injection H as <- <-. exists [], d. split; auto. apply (sim_same s); cbn; auto.
    intros n o b' E B. rewrite upd_neq'; auto. intros ->. now apply (C n o).
  - destruct (f_used s n) eqn:Eu; [discriminate|]. injection H as <- <-. destruct C as (C1 & C2 & C3 & C4).
    apply sim_push; auto. rewrite units_offset, units_length by (auto; lia). cbn. repeat split; auto. nia.
  - destruct (f_used s n) eqn:Eu; [discriminate|]. injection H as <- <-. destruct C as (C1 & C2 & C3 & C4).
    apply sim_push; auto. rewrite units_offset, units_length by (auto; lia). cbn. repeat split; auto. nia.
  - destruct (f_used s n) eqn:Eu; [discriminate|].
    destruct (Bool.bool_dec osync true) as [Eos|Eos]; [|apply not_true_is_false in Eos]; rewrite Eos in H.
    + injection H as <- <-. eapply (sim_issue s d _ n q id WSync RFlush (Finished true)); cbn; auto 7.
    + injection H as <- <-. apply sim_push; cbn; auto.
  - injection H as <- <-. exists [], d. split; auto. now apply sim_submit.
  - destruct (f_op s n) as [[q id w ph]|] eqn:Eo; [|discriminate]. destruct w as [off len b|off len b|], ph as [|mv since|ok]; try discriminate.
    + destruct (cur_cell (f_cell s (off + i))) as [v|] eqn:Ev; [|discriminate].
      destruct ((i <? len) && (off + i <? f_len s) && (i <? length (f_mem s b))) eqn:Ec; [|discriminate]. injection H as <- <-.
      apply sim_move_read; auto; lia.
    + destruct (nth_error (f_mem s b) i) as [v|] eqn:Ev; [|discriminate].
      destruct ((i <? len) && negb (mv i) && negb readonly) eqn:Ec; [|discriminate]. injection H as <- <-.
      apply sim_move_write; auto; try lia. destruct (mv i); auto. rewrite andb_false_r in Ec. discriminate.
  - destruct (f_op s n) as [[q id w ph]|] eqn:Eo; [|discriminate]. destruct ph as [|mv since|ok]; try discriminate.
    destruct (possible w mv r) eqn:Ep; [|discriminate]. injection H as <- <-. exists [], d. split; auto.
    eapply sim_complete; eauto. intros k ->. now apply (Ns n k).
  - match type of H with Some (report_all ?l ?s0) = _ => set (l0 := l) in *; set (s1 := s0) in * end.
    assert (I1 : sim s1 d).
    { apply (sim_same s); subst s1; cbn; auto. intros q'. unfold upd. destruct (q' =? q); auto. }
    destruct (sim_report_all q l0 s1 d I1) as (es & d' & R & I2).
    { subst s1. cbn. apply upd_eq'. } { subst s1. cbn. apply upd_eq'. }
    { exact (si_fin _ _ I q). }
    destruct (report_all l0 s1) as [s2 t2]. injection H as <- <-. eauto.
  - injection H as <- <-. destruct (sim_crash s d sv I) as (sv' & d' & _ & R & I'). eauto.
Qed.

Lemma sim_run : forall es s d s' tr, sim s d -> calls_ok us per readonly osync entries nsec s es -> no_short_transfers es ->
  run s es = Some (s', tr) ->
  exists es' d', drun size d es' = Some (d', flat_map (ren wt) tr) /\ sim s' d'.
Proof.
  intros es. induction es as [|e es IH]; intros s d s' tr I C Ns H; cbn [frun] in H.
  - injection H as <- <-. exists [], d. auto.
  - cbn [calls_ok] in C. destruct C as (C1 & C2). destruct (step s e) as [[s1 t1]|] eqn:E; [|discriminate].
    destruct (run s1 es) as [[s2 t2]|] eqn:E2; [|discriminate]. injection H as <- <-.
    destruct (sim_step _ _ _ _ _ I C1 ltac:(intros n k ->; apply (Ns n k); now left) E) as (es1 & d1 & R1 & I1).
    destruct (IH _ _ _ _ I1 C2 ltac:(intros n k F; apply (Ns n k); now right) E2) as (es2 & d2 & R2 & I2).
    exists (es1 ++ es2), d2. split; auto. rewrite flat_map_app. eapply drun_app; eauto.
Qed.

Lemma sim_init : forall len contents, sim (new_fdev len contents) (new_disk contents).
Proof.
  intros len contents. constructor; cbn; auto; try discriminate.
  - intros x. exists []. cbn. unfold SyncProofs.entry, SyncProofs.ser. cbn. now destruct wt.
  - intros x e [<-|[]]. cbn. lia.
  - intros x e [<-|[]]. reflexivity.
  - intros n Hn. unfold SyncProofs.ser. destruct wt; split; try discriminate; intros; destruct n; try discriminate; cbn; auto; lia.
  - intros q. split; [constructor|intros n []].
  - intros q. split; [constructor|intros n []].
  - intros _ x. apply lastonly_single.
Qed.

End S.
