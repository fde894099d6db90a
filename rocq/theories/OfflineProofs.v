(** Lemmas about the files a stopped lazy device leaves behind. *)
From Coq Require Import List Arith NArith Bool Lia ZifyBool ZifyNat.
Import ListNotations.
From Verif Require Import Base BaseFacts DiskSpec TraceSpec TraceFacts LazyState MetadataModel LazyModel LazySpec LazyInv LazyTac LazyInvGuest LazyInvFetch LazyInvMeta LazySim LazyInv2 LazyReach LazyRun LazyProofs LazyProofs2 OfflineModel OfflineSpec.

Lemma trim_in {A} snap (l : list (nat * A)) e : In e (trim snap l) -> In e l.
Proof.
  induction l as [|a l IH]; cbn; auto. destruct (snap (fst a)); intros [->|H]; auto. destruct H.
Qed.
Lemma crashed_in {A} (l : list (nat * A)) i e : In e (crashed l i) -> exists e', In e' l /\ snd e' = snd e.
Proof.
  unfold crashed. destruct (nth_error l i) as [a|] eqn:E.
  - intros [<-|[]]. apply nth_error_In in E. eauto.
  - destruct l as [|a l]; [intros []|]. intros [<-|[]]. exists a. split; [now left|auto].
Qed.

Lemma concat_length {A B} (f : A -> list B) n l : (forall x, In x l -> length (f x) = n) -> length (concat (map f l)) = length l * n.
Proof. intros H. induction l as [|a l IH]; auto. cbn [map concat length]. rewrite app_length, H by now left. rewrite IH; [lia|]. intros x Hx. apply H. now right. Qed.

Section P.
Context {V : Type}.
Variable c : cfg V.
Variable base : nat -> V.
Variable h : nat -> N.
Hypothesis WC : well_configured c h.
Notation hs := (hs h).
Notation reached := (reached c base h).
Notation history := (history c base h).

Lemma bh_fetch_completed st ok (s : state V) : bh (fetch_completed c st ok s) = bh s.
Proof.
  rewrite fetch_completed_eq. cbv zeta. assert (E : bh (release_buf st s) = bh s).
  { unfold release_buf. destruct (fbuf s st); auto. unfold return_fbuf. sred. destruct (_ && _); auto. }
  destruct ok; auto. destruct (_ <? _); auto. destruct (_ <? _); auto.
Qed.
Lemma bh_handle st (s : state V) : bh (handle_fetch_request c st s) = bh s.
Proof. unfold handle_fetch_request. destruct (_ <? _); auto. destruct (released _); auto. destruct (fsts s st); auto. Qed.
Lemma bh_ssf q sts : forall (s : state V), bh (fst (start_stripe_fetches c q sts s)) = bh s.
Proof.
  induction sts as [|st sts IH]; intros s; cbn [start_stripe_fetches]; auto. destruct (_ <? _); auto. destruct (_ && _); auto.
  destruct (wdone s); auto. rewrite IH. reflexivity.
Qed.
Lemma bh_ssw sts : forall (s : state V), bh (fst (start_stripe_set_written c sts s)) = bh s.
Proof.
  induction sts as [|st sts IH]; intros s; cbn [start_stripe_set_written]; auto. destruct (_ <? _); auto. destruct (shw s st); auto.
  destruct (wdone s); auto. rewrite IH. reflexivity.
Qed.
Lemma bh_add q id r (s : state V) : bh (add_req c q id r s) = bh s.
Proof.
  assert (Q : forall n off data (s1 : state V), bh (queue_write c n q id off data s1) = bh s1).
  { intros n off data s1. unfold queue_write. pose proof (bh_ssf q (stripes_of c off (length data)) s1) as E.
    destruct (start_stripe_fetches c q _ s1) as [s2 []]; cbn [fst] in E; auto.
    destruct (track c); [|exact E]. pose proof (bh_ssw (stripes_of c off (length data)) s2) as E2.
    destruct (start_stripe_set_written c _ s2) as [s3 []]; cbn [fst] in E2; (transitivity (bh s3); [reflexivity|congruence]). }
  unfold add_req. destruct r as [off len|off data|]; [| |reflexivity].
  - unfold add_read. destruct (fetch_status c _ _); try reflexivity. destruct (_ && _); [reflexivity|].
    match goal with |- context [start_stripe_fetches c q ?a ?b] => pose proof (bh_ssf q a b) as E; destruct (start_stripe_fetches c q a b) as [s2 []] end; cbn [fst] in E; sred; auto.
  - unfold add_write. destruct (fetch_status c _ _); try reflexivity.
    + rewrite Q. reflexivity.
    + destruct (track c); [|reflexivity]. destruct (stripes_written c _ _) as [[|]|]; try reflexivity. rewrite Q. reflexivity.
Qed.

(** What a step does to a sector of the base device. *)
Lemma bh_shape s e x : let b := bh s x in let b' := bh (fst (step c s e)) x in
  b' = b \/ (exists n v, b' = (n, v) :: b /\ (guest_writing s x \/ copying s x)) \/
  (exists snap, b' = trim snap b) \/ (exists i, b' = crashed b i).
Proof.
  cbv zeta.
  set (G := fun s' => bh s' x = bh s x \/ (exists n v, bh s' x = (n, v) :: bh s x /\ (guest_writing s x \/ copying s x)) \/
    (exists snap, bh s' x = trim snap (bh s x)) \/ (exists i, bh s' x = crashed (bh s x) i)). change (G (fst (step c s e))).
  assert (K : forall s', bh s' = bh s -> G s') by (intros s' E; left; now rewrite E).
  assert (W : forall f, bh (f s) = bh s -> bh (worker f s) = bh s) by (intros f Hf; unfold worker; destruct (wdone s); auto).
  assert (Kr : G s) by now apply K.
  unfold step. destruct e as [q id r|q|q|n ok|n i|n i|n i v0|n| | | |a|n ok| | |n ok| |pb pm]; try (destruct (panic s); [exact Kr|]); cbn [fst].
  - apply K, bh_add.
  - apply K. unfold process_front. destruct (chq s q) as [|r l]; auto. destruct (fetch_status _ _ _); auto. destruct (_ && _); auto. destruct (stripes_written _ _ _) as [[|]|]; auto.
  - apply K. reflexivity.
  - unfold op_done. destruct (ops s n) as [[o dv k]|] eqn:Eo; [|auto]. destruct (_ && _); [auto|].
    set (s1 := if ok then _ else _).
    assert (T : forall s2, bh s2 = bh s1 -> G s2).
    { intros s2 E. unfold s1 in E. destruct ok; [|now apply K]. destruct k; try (now apply K). cbn [complete_medium] in E. sred.
      right; right; left. exists snap. now rewrite E. }
    destruct o as [q id|st]; cbn [fst]; [auto|]. destruct (wdone s); [auto|]. cbn [fst]. clearbody s1.
    apply T. unfold tgt_done. destruct ok; [|now rewrite bh_fetch_completed].
    destruct (fsts s1 st) as [[| | |]|]; auto. now rewrite bh_fetch_completed.
  - unfold base_apply. destruct (ops s n) as [[o [] [off len d ap| |]]|] eqn:Eo; auto. destruct (write_value d i s) as [w|]; auto.
    destruct (_ && _) eqn:Ec; auto. apply andb_true_iff in Ec as [Ec _]. apply andb_true_iff in Ec as [E1 E2].
    apply Nat.ltb_lt in E1. unfold G. sred. unfold upd. destruct (Nat.eqb_spec x (off + i)); auto. subst x. right. left.
    exists n, w. split; [reflexivity|]. destruct o as [q id|st]; [left|right].
    + exists n, q, id, off, len, d, ap. split; auto. lia.
    + exists n, st, DBase, off, len, d, ap. split; auto. lia.
  - apply K. unfold read_sample. destruct (ops s n) as [[o dv0 [| |]]|]; auto. destruct (_ && _); auto.
  - apply K. unfold scribble. destruct (sops s n) as [[? ?]|]; auto.
  - apply K. unfold meta_apply. destruct (mops s n) as [[? ? ? []|]|]; auto.
  - apply K, W. unfold worker_recv. destruct (mq s) as [|[?|?] ?]; auto. now rewrite bh_handle.
  - apply K. reflexivity.
  - apply K, W. unfold update_autofetch. destruct (autofetch c); auto. destruct (fq s); auto. destruct (fauto s); auto. now rewrite bh_handle.
  - apply K, W. unfold start_fetch. destruct (fq s); auto. destruct (favail s); auto. cbv zeta. destruct (source_accepts _ _ _ _); auto. now rewrite bh_fetch_completed.
  - apply K, W. unfold src_done. destruct (sops s n) as [[st b]|]; auto. cbv zeta. destruct ok; sred; destruct (fbuf s st); auto.
    + unfold start_write. cbv zeta. destruct (_ <? _); auto.
    + now rewrite bh_fetch_completed.
  - apply K, W. reflexivity.
  - apply K, W. unfold start_meta_write. destruct (mqueue s) as [|[? ?] ?]; auto. destruct (mavail s); auto. cbv zeta.
    destruct (existsb _ _); auto. destruct (_ <? _); auto. destruct (has_flag _ _); auto.
  - apply K, W. unfold meta_done. cbv zeta. destruct (mops s n) as [[? ? ? ?|? ?]|]; auto; [destruct (_ && _); auto|]; rewrite bh_meta_completion; destruct ok; auto.
  - apply K, W. unfold disconnect. destruct (_ && _); auto.
  - right; right; right. exists (pb x). reflexivity.
Qed.

Lemma bh_nonempty es x : bh (reached es) x <> [].
Proof.
  induction es as [|e es IH] using rev_ind; [discriminate|]. rewrite reached_app, run_cons. cbn [run fst].
  destruct (bh_shape (reached es) e x) as [->|[(n & v & -> & _)|[(snap & ->)|(i & ->)]]]; auto; try discriminate; destruct (bh (reached es) x) as [|a l]; try congruence.
  - cbn. destruct (snap (fst a)); discriminate.
  - unfold crashed. destruct (nth_error _ i); discriminate.
Qed.

(** A step adds a value to a sector of the base device only as part of a guest
    write or of a copy. *)
Lemma bh_step s e x v : In v (map snd (bh (fst (step c s e)) x)) ->
  In v (map snd (bh s x)) \/ guest_writing s x \/ copying s x.
Proof.
  destruct (bh_shape s e x) as [->|[(n & w & -> & H)|[(snap & ->)|(i & ->)]]]; auto; intros Hi; left; apply in_map_iff in Hi as (a & <- & Hi).
  - apply trim_in in Hi. now apply in_map.
  - apply crashed_in in Hi as (a' & Hi & <-). now apply in_map.
Qed.

(** With write tracking, a sector of a stripe that has no source data and is not
    marked as written holds what it held at the start. *)
Lemma untouched es x : track c = true -> x / ssc c < nst c ->
  shw (reached es) (x / ssc c) = false -> hs (x / ssc c) = false ->
  forall v, In v (map snd (bh (reached es) x)) -> v = base x.
Proof.
  intros Ht Hx. induction es as [|e es IH] using rev_ind; intros Hw Hs v Hv.
  - cbn in Hv. destruct Hv as [<-|[]]. reflexivity.
  - rewrite reached_app in Hv. rewrite run_cons in Hv. cbn [run fst] in Hv.
    assert (Hw0 : shw (reached es) (x / ssc c) = false).
    { destruct (shw (reached es) (x / ssc c)) eqn:E; auto. rewrite (mo_shw _ _ (mono_reached c base h WC es [e]) _ E) in Hw. discriminate. }
    destruct (bh_step _ _ _ _ Hv) as [H|[H|H]]; [auto| |].
    + destruct (writing_released c base h WC es x H) as [_ T]. rewrite (T Ht) in Hw0. discriminate.
    + destruct (copying_unreleased c base h WC es x H) as [R _]. pose proof (k_inv _ _ _ (ok_reached c base h WC es)) as HI.
      pose proof (proj1 (i_M_shf _ _ _ HI _) Hx) as X. rewrite Hs in X. destruct (shf (reached es) (x / ssc c)); discriminate.
Qed.


(** ** Where written marks come from *)

Definition wr (n : N) : bool := has_flag FLAG_WRITTEN n.
Record marked (s : state V) (st : nat) : Prop := Marked { mk_any :
  In (BSetWritten st) (mq s) \/ In (st, SetWritten) (mqueue s) \/ wr (hdrs s st) = true \/
  (exists b, wr (mbufs s b st) = true) \/ (exists g e, In e (mh s g) /\ wr (snd e st) = true) }.

Definition same_marks (s s' : state V) : Prop :=
  mq s' = mq s /\ mqueue s' = mqueue s /\ hdrs s' = hdrs s /\ mbufs s' = mbufs s /\ mh s' = mh s.
Lemma marked_same s s' st : same_marks s s' -> marked s' st -> marked s st.
Proof. intros (A & B & C & D & E) [H]. constructor. now rewrite <- A, <- B, <- C, <- D, <- E. Qed.
Lemma same_marks_refl s : same_marks s s. Proof. repeat split. Qed.
Lemma same_marks_trans s1 s2 s3 : same_marks s1 s2 -> same_marks s2 s3 -> same_marks s1 s3.
Proof. intros (A & B & C & D & E) (A' & B' & C' & D' & E'). repeat split; congruence. Qed.

Lemma sm_fetch_completed st ok (s : state V) : same_marks s (fetch_completed c st ok s).
Proof.
  rewrite fetch_completed_eq. cbv zeta. assert (E : same_marks s (release_buf st s)).
  { unfold release_buf. destruct (fbuf s st); [|apply same_marks_refl]. unfold return_fbuf. sred. destruct (_ && _); repeat split. }
  eapply same_marks_trans; [exact E|]. destruct ok; [repeat split|]. destruct (_ <? _); [repeat split|]. destruct (_ <? _); repeat split.
Qed.
Lemma sm_handle st (s : state V) : same_marks s (handle_fetch_request c st s).
Proof. unfold handle_fetch_request. destruct (_ <? _); [|repeat split]. destruct (released _); [repeat split|]. destruct (fsts s st); repeat split. Qed.

(** The request queue of the worker apart, marks are not affected. *)
Definition same_but_mq (s s' : state V) : Prop :=
  mqueue s' = mqueue s /\ hdrs s' = hdrs s /\ mbufs s' = mbufs s /\ mh s' = mh s.
Lemma marked_mq s s' st (Q : Prop) : same_but_mq s s' -> (In (BSetWritten st) (mq s') -> In (BSetWritten st) (mq s) \/ Q) ->
  marked s' st -> marked s st \/ Q.
Proof.
  intros (B & C & D & E) M [H]. rewrite B, C, D, E in H. destruct H as [H|H].
  - destruct (M H) as [X|X]; [left; constructor; now left|now right].
  - left. constructor. now right.
Qed.

Lemma ssf_marks q sts : forall (s : state V), same_but_mq s (fst (start_stripe_fetches c q sts s)) /\
  forall st, In (BSetWritten st) (mq (fst (start_stripe_fetches c q sts s))) -> In (BSetWritten st) (mq s).
Proof.
  induction sts as [|st sts IH]; intros s; cbn [start_stripe_fetches]; [split; [repeat split|auto]|].
  destruct (_ <? _); [|split; [repeat split|auto]]. destruct (_ && _); [|apply IH].
  destruct (wdone s); [split; [repeat split|auto]|]. destruct (IH (set_chreq (upd (chreq s) q (upd (chreq s q) st true)) (set_mq (mq s ++ [BFetch st]) s))) as [A B].
  split; [exact A|]. intros st' H. apply B in H. sred. apply in_app_iff in H as [H|[H|[]]]; [auto|discriminate].
Qed.
Lemma ssw_marks sts : forall (s : state V), same_but_mq s (fst (start_stripe_set_written c sts s)) /\
  forall st, In (BSetWritten st) (mq (fst (start_stripe_set_written c sts s))) -> In (BSetWritten st) (mq s) \/ In st sts.
Proof.
  induction sts as [|st sts IH]; intros s; cbn [start_stripe_set_written]; [split; [repeat split|auto]|].
  destruct (_ <? _); [|split; [repeat split|auto]]. destruct (shw s st).
  { destruct (IH s) as [A B]. split; [exact A|]. intros st' H. destruct (B st' H); cbn; auto. }
  destruct (wdone s); [split; [repeat split|auto]|]. destruct (IH (set_mq (mq s ++ [BSetWritten st]) s)) as [A B].
  split; [exact A|]. intros st' H. apply B in H as [H|H]; [|right; now right]. sred. apply in_app_iff in H as [H|[H|[]]]; [auto|].
  injection H as ->. right. now left.
Qed.

Lemma add_marks q id r (s : state V) st : marked (add_req c q id r s) st ->
  marked s st \/ exists off data, r = RWrite off data /\ In st (stripes_of c off (length data)).
Proof.
  assert (X : forall s1, same_but_mq s s1 -> (forall st, In (BSetWritten st) (mq s1) -> In (BSetWritten st) (mq s)) -> 
     forall s2, same_marks s1 s2 -> marked s2 st -> marked s st \/ exists off data, r = RWrite off data /\ In st (stripes_of c off (length data))).
  { intros s1 A B s2 C M. apply (marked_same _ _ _ C) in M. eapply marked_mq; eauto. }
  assert (N0 : same_but_mq s (set_next (S (next s)) s)) by repeat split.
  assert (Y : forall s2, same_marks s s2 -> marked s2 st -> marked s st \/ exists off data, r = RWrite off data /\ In st (stripes_of c off (length data))).
  { intros s2 C M. left. eapply marked_same; eauto. }
  unfold add_req. destruct r as [off len|off data|]; [| |refine (Y _ _); repeat split].
  - unfold add_read. destruct (fetch_status c _ _); try (refine (Y _ _); now repeat split). destruct (_ && _); [refine (Y _ _); repeat split|].
    match goal with |- context [start_stripe_fetches c q ?a ?b] => destruct (ssf_marks q a b) as [E1 E2]; destruct (start_stripe_fetches c q a b) as [s2 []] end; cbn [fst] in *; (eapply (X s2); [exact E1|exact E2|repeat split]).
  - assert (Q : forall s2, same_marks s s2 -> marked (queue_write c (next s) q id off data s2) st -> marked s st \/ exists off0 data0, RWrite off data = RWrite off0 data0 /\ In st (stripes_of c off0 (length data0))).
    { intros s2 C. unfold queue_write. destruct (ssf_marks q (stripes_of c off (length data)) s2) as [E1 E2].
      assert (E1' : same_but_mq s (fst (start_stripe_fetches c q (stripes_of c off (length data)) s2))).
      { destruct C as (C1 & C2 & C3 & C4 & C5), E1 as (D1 & D2 & D3 & D4). repeat split; congruence. }
      assert (E2' : forall st, In (BSetWritten st) (mq (fst (start_stripe_fetches c q (stripes_of c off (length data)) s2))) -> In (BSetWritten st) (mq s)).
      { intros st' H. apply E2 in H. destruct C as [C _]. now rewrite <- C. }
      clear E1 E2 C. destruct (start_stripe_fetches c q _ s2) as [s3 []]; cbn [fst] in *; try (eapply (X s3); [exact E1'|exact E2'|now repeat split]).
      destruct (track c); [|eapply (X s3); [exact E1'|exact E2'|repeat split]].
      destruct (ssw_marks (stripes_of c off (length data)) s3) as [F1 F2]. destruct (start_stripe_set_written c _ s3) as [s4 r4]; cbn [fst] in *.
      assert (G : marked s4 st -> marked s st \/ exists off0 data0, RWrite off data = RWrite off0 data0 /\ In st (stripes_of c off0 (length data0))).
      { eapply marked_mq.
        - destruct E1' as (C1 & C2 & C3 & C4), F1 as (D1 & D2 & D3 & D4). repeat split; congruence.
        - intros H. destruct (F2 st H) as [H'|H']; [auto|]. right. eauto. }
      destruct r4; (intros M; apply G; eapply marked_same; [|exact M]; repeat split). }
    unfold add_write. destruct (fetch_status c _ _); try (refine (Y _ _); now repeat split); [apply Q; repeat split|].
    destruct (track c); [|refine (Y _ _); repeat split]. destruct (stripes_written c _ _) as [[|]|]; try (refine (Y _ _); now repeat split). apply Q. repeat split.
Qed.

Lemma wr_lor a b : wr (N.lor a b) = wr a || wr b.
Proof.
  unfold wr, has_flag. rewrite N.land_lor_distr_l. destruct (N.land a FLAG_WRITTEN =? 0)%N eqn:E1, (N.land b FLAG_WRITTEN =? 0)%N eqn:E2; cbn [negb orb].
  - apply N.eqb_eq in E1, E2. rewrite E1, E2. reflexivity.
  - apply N.eqb_eq in E1. rewrite E1, N.lor_0_l, E2. reflexivity.
  - apply N.eqb_eq in E2. rewrite E2, N.lor_0_r, E1. reflexivity.
  - destruct (N.eqb_spec (N.lor (N.land a FLAG_WRITTEN) (N.land b FLAG_WRITTEN)) 0) as [X|X]; auto. apply N.lor_eq_0_iff in X as [X _]. rewrite X in E1. discriminate.
Qed.
Lemma wr_ldiff a b : wr (N.ldiff a b) = true -> wr a = true.
Proof.
  unfold wr, has_flag. intros H. destruct (N.eqb_spec (N.land a FLAG_WRITTEN) 0) as [X|X]; auto.
  assert (Y : N.land (N.ldiff a b) FLAG_WRITTEN = 0%N).
  { apply N.bits_inj. intros n. pose proof (f_equal (fun z => N.testbit z n) X) as Z. cbn beta in Z. rewrite !N.land_spec, N.bits_0 in *. rewrite N.ldiff_spec.
    destruct (N.testbit a n), (N.testbit FLAG_WRITTEN n), (N.testbit b n); auto. }
  rewrite Y in H. discriminate.
Qed.

Lemma completion_marks st0 ok (s : state V) st : marked (meta_completion c st0 ok s) st -> marked s st.
Proof.
  unfold meta_completion. destruct (mupd s st0) as [u|]; auto. destruct ok; [destruct (u_stage u)|].
  - apply marked_same. unfold meta_written, return_mbuf. destruct (_ && _); repeat split.
  - apply marked_same. unfold meta_flushed, set_stripe_header. cbv zeta. sred. destruct (_ <? _); [|repeat split].
    destruct (has_flag FLAG_FETCHED _), (has_flag FLAG_WRITTEN _); try destruct (released _); repeat split.
  - intros [H]. constructor. unfold meta_failed, return_mbuf in H. cbv zeta in H.
    assert (X : In (BSetWritten st) (mq s) \/ In (st, SetWritten) (mqueue s) \/ wr (upd (hdrs s) st0 (N.ldiff (hdrs s st0) (u_mask u)) st) = true \/
      (exists b, wr (mbufs s b st) = true) \/ (exists g e, In e (mh s g) /\ wr (snd e st) = true)).
    { destruct (u_stage u); try destruct (_ && _); sred; exact H. }
    clear H. destruct X as [X|[X|[X|X]]]; auto. right; right; left. unfold upd in X. destruct (Nat.eqb_spec st st0); [|auto]. subst. eapply wr_ldiff; eauto.
Qed.

Lemma marks_step s e st : marked (fst (step c s e)) st ->
  marked s st \/ exists q id off data, e = EAdd q id (RWrite off data) /\ In st (stripes_of c off (length data)) /\
    In (TIssue (next s) q id (RWrite off data)) (snd (step c s e)).
Proof.
  assert (K : forall s' (Q : Prop), same_marks s s' -> marked s' st -> marked s st \/ Q) by (intros s' Q A B; left; eapply marked_same; eauto).
  assert (W : forall f, same_marks s (f s) -> same_marks s (worker f s)) by (intros f Hf; unfold worker; destruct (wdone s); auto; apply same_marks_refl).
  assert (W' : forall f, (marked (f s) st -> marked s st) -> marked (worker f s) st -> marked s st) by (intros f Hf; unfold worker; destruct (wdone s); auto).
  unfold step. destruct e as [q id r|q|q|n ok|n i|n i|n i v0|n| | | |a|n ok| | |n ok| |pb pm]; try (destruct (panic s); [cbn [fst]; now auto|]); cbn [fst snd].
  - intros H. destruct (add_marks _ _ _ _ _ H) as [X|(off & data & -> & X)]; [auto|]. right. exists q, id, off, data. split; auto. split; auto. now left.
  - apply K. unfold process_front. destruct (chq s q) as [|r l]; [repeat split|]. destruct (fetch_status _ _ _); try (now repeat split). destruct (_ && _); [|repeat split]. destruct (stripes_written _ _ _) as [[|]|]; repeat split.
  - apply K. repeat split.
  - apply K. unfold op_done. destruct (ops s n) as [[o dv k]|]; [|repeat split]. destruct (_ && _); [repeat split|].
    set (s1 := if ok then _ else _). assert (E : same_marks s s1) by (unfold s1; destruct ok; [destruct k|]; repeat split). clearbody s1.
    destruct o as [q id|st']; cbn [fst]; [exact E|]. destruct (wdone s); [repeat split|]. cbn [fst]. eapply same_marks_trans; [exact E|].
    unfold tgt_done. destruct ok; [|apply sm_fetch_completed]. destruct (fsts s1 st') as [[| | |]|]; try (now repeat split). apply sm_fetch_completed.
  - apply K. unfold base_apply. destruct (ops s n) as [[o [] [off len d ap| |]]|]; try (now repeat split). destruct (write_value d i s); [|repeat split]. destruct (_ && _); repeat split.
  - apply K. unfold read_sample. destruct (ops s n) as [[o dv0 [| |]]|]; try (now repeat split). destruct (_ && _); repeat split.
  - apply K. unfold scribble. destruct (sops s n) as [[? ?]|]; repeat split.
  - intros [H]. left. constructor. unfold meta_apply in H. destruct (mops s n) as [[st0 g b []|]|]; auto. sred.
    destruct H as [H|[H|[H|[H|(g' & e & H & He)]]]]; auto. unfold upd in H. destruct (Nat.eqb_spec g' g); [|right; right; right; right; eauto].
    destruct H as [<-|H]; [|right; right; right; right; eauto]. cbn [snd] in He. right; right; right; left. eauto.
  - intros H. left. revert H. apply W'. unfold worker_recv. destruct (mq s) as [|[st0|st0] r] eqn:E; auto.
    + intros H. apply (marked_same _ _ _ (sm_handle st0 (set_mq r s))) in H. destruct H as [H]. constructor. sred. rewrite E. destruct H as [H|H]; [left; now right|auto].
    + intros [H]. constructor. sred. rewrite E. destruct H as [H|[H|H]]; [left; now right| |auto].
      apply in_app_iff in H as [H|[H|[]]]; [auto|]. injection H as ->. left. now left.
  - apply K. repeat split.
  - apply K, W. unfold update_autofetch. destruct (autofetch c); [|repeat split]. destruct (fq s); [|repeat split]. destruct (fauto s); [repeat split|]. eapply same_marks_trans; [|apply sm_handle]. repeat split.
  - apply K, W. unfold start_fetch. destruct (fq s); [repeat split|]. destruct (favail s); [repeat split|]. cbv zeta. destruct (source_accepts _ _ _ _); [repeat split|]. eapply same_marks_trans; [|apply sm_fetch_completed]. repeat split.
  - apply K, W. unfold src_done. destruct (sops s n) as [[st0 b]|]; [|repeat split]. cbv zeta. destruct ok; sred; destruct (fbuf s st0); try (now repeat split).
    + unfold start_write. cbv zeta. destruct (_ <? _); repeat split.
    + eapply same_marks_trans; [|apply sm_fetch_completed]. repeat split.
  - intros H. left. revert H. apply W'. intros [H]. constructor. unfold take_finished_fetches in H. sred.
    destruct H as [H|[H|H]]; auto. apply in_app_iff in H as [H|H]; [auto|]. apply in_map_iff in H as (p & H & _). discriminate.
  - intros H. left. revert H. apply W'. unfold start_meta_write. destruct (mqueue s) as [|[st0 k] q] eqn:Eq; auto. destruct (mavail s) as [|b av]; auto. cbv zeta.
    destruct (existsb _ _); auto.
    assert (Sub : marked (set_mqueue q s) st -> marked s st).
    { intros [H]. constructor. sred. rewrite Eq. destruct H as [H|[H|H]]; auto. right; left. now right. }
    destruct (st0 <? nst c); [|intros H; apply Sub; eapply marked_same; [|exact H]; repeat split]. destruct (has_flag _ _); [exact Sub|].
    intros [H]. sred.
    assert (Hh : wr (upd (hdrs s) st0 (N.lor (hdrs s st0) (mask_of k)) st) = true -> marked s st).
    { unfold upd. destruct (Nat.eqb_spec st st0); [|intros X; constructor; auto]. subst st0. rewrite wr_lor. intros X. apply orb_true_iff in X as [X|X]; [constructor; auto|].
      destruct k; [discriminate|]. constructor. right; left. rewrite Eq. now left. }
    destruct H as [H|[H|[H|[(b' & H)|H]]]].
    + constructor. auto.
    + constructor. right; left. rewrite Eq. now right.
    + auto.
    + unfold upd at 1 in H. destruct (Nat.eqb_spec b' b); [auto|]. constructor. right; right; right; left. eauto.
    + constructor. auto.
  - intros H. left. revert H. apply W'. unfold meta_done. cbv zeta. destruct (mops s n) as [[st0 g b ap|st0 snap]|]; auto.
    + destruct (_ && _); auto. intros H. apply completion_marks in H. eapply marked_same; [|exact H]. destruct ok; repeat split.
    + intros H. apply completion_marks in H. destruct ok; [|eapply marked_same; [|exact H]; repeat split].
      destruct H as [H]. constructor. sred. destruct H as [H|[H|[H|[H|(g & e & H & He)]]]]; auto. right; right; right; right. exists g, e. split; auto. now apply trim_in in H.
  - apply K, W. unfold disconnect. destruct (_ && _); repeat split.
  - unfold crash, boot. cbv zeta. intros [H]. left. constructor. sred. 
    assert (X : forall g e, In e (crashed (mh s g) (pm g)) -> wr (snd e st) = true -> exists g e, In e (mh s g) /\ wr (snd e st) = true).
    { intros g e Hi He. apply crashed_in in Hi as (e' & Hi & E). exists g, e'. split; auto. now rewrite E. }
    destruct H as [H|[H|[H|[(b & H)|(g & e & H & He)]]]]; try (now destruct H); [|discriminate|right; right; right; right; eauto].
    right; right; right; right. unfold loaded_headers in H. destruct (crashed _ _) as [|e l] eqn:E; [discriminate|]. eapply X; [rewrite E; now left|exact H].
Qed.

(** A stripe marked as written was marked at the start, or a write to it was
    issued. *)
Lemma marks_origin es st : marked (reached es) st ->
  wr (h st) = true \/ exists n q id off data, In (TIssue n q id (RWrite off data)) (history es) /\
    In (EAdd q id (RWrite off data)) es /\ In st (stripes_of c off (length data)).
Proof.
  induction es as [|e es IH] using rev_ind.
  - intros [H]. cbn in H. destruct H as [[]|[[]|[H|[(b & H)|(g & e & [<-|[]] & H)]]]]; auto. discriminate.
  - rewrite reached_app, run_cons. cbn [run fst]. intros H. destruct (marks_step _ _ _ H) as [X|(q & id & off & data & -> & A & B)].
    + destruct (IH X) as [Y|(n & q & id & off & data & A & B & C)]; [auto|]. right. exists n, q, id, off, data.
      split; [rewrite history_app; apply in_app_iff; auto|]. split; [apply in_app_iff; auto|auto].
    + right. exists (next (reached es)), q, id, off, data. split; [|split; [apply in_app_iff; right; now left|auto]].
      rewrite history_app. apply in_app_iff. right. cbn [run]. destruct (step c (reached es) _) as [s1 t1]. cbn [snd] in *. rewrite app_nil_r. auto.
Qed.

(** A successful write was to stripes whose data is on the base device. *)
Lemma acked_write_released es n q id off data d i :
  In (TIssue n q id (RWrite off data)) (history es) -> In (TDone n q id true d) (history es) -> i < length data ->
  released (shf (reached es) ((off + i) / ssc c)) = true.
Proof.
  intros Hi Hd Hil. destruct (run_split c _ _ _ Hd) as (es1 & e & es2 & -> & Hs).
  pose proof (mono_reached c base h WC es1 (e :: es2)) as M. apply (mo_rel _ _ M). fold (reached es1) in Hs.
  destruct (done_true_op c _ _ _ _ _ _ Hs) as (dv & k & Ho).
  apply (writing_released c base h WC es1); auto. 
  destruct (refines c base h WC es1) as (dk & [des Hdr] & HS). destruct (s_guest _ _ _ HS _ _ _ _ _ Ho) as (k' & Hk & Km).
  destruct (issued_run (target c) _ _ _ _ Hdr) as (Is & _ & _). destruct (Is _ _ _ _ Hk) as (t0 & r & t3 & Et & Kr & _).
  destruct (refines c base h WC (es1 ++ e :: es2)) as (dk2 & Hb2 & _).
  pose proof (disk_completions_match (target c) _ _ _ Hb2) as [_ U].
  assert (r = RWrite off data).
  { rewrite history_app in Hi, U. rewrite Et in Hi, U. set (tl := snd _) in *. clearbody tl.
    assert (Uq : forall a b x y r1 r2, (t0 ++ TIssue n q id r :: t3) ++ tl = a ++ TIssue n x y r1 :: b -> In (TIssue n q id r2) a -> False).
    { intros a b x y r1 r2 E Hin. eapply U; eauto. }
    rewrite <- app_assoc in Hi, Uq. apply in_app_iff in Hi. cbn [app] in *. destruct Hi as [Hi|[Hi|Hi]].
    - exfalso. apply (Uq t0 (t3 ++ tl) q id r _ eq_refl Hi).
    - congruence.
    - exfalso. apply in_split in Hi. destruct Hi as (u1 & u2 & Eu). apply (Uq (t0 ++ TIssue n q id r :: u1) u2 q id (RWrite off data) r).
      + rewrite Eu. rewrite <- app_assoc. reflexivity.
      + apply in_app_iff. right. now left. }
  subst r. unfold kind_of in Kr. destruct k' as [|off' data' ap'|]; try tauto. destruct Kr as [<- <-].
  unfold kmatch in Km. destruct dv; destruct k as [off2 len2 d2 ap2| |]; try tauto. destruct Km as (-> & <- & -> & _).
  exists n, q, id, off, (length data), (WData data), ap2. split; auto. lia.
Qed.


(** ** After a stop *)

Lemma stopped_hdr es pb pm st : st < nst c ->
  let s := reached (es ++ [ECrash pb pm]) in
  shf s st = initial_fetch_state (loaded_headers c (mh s) st) /\ shw s st = has_flag FLAG_WRITTEN (loaded_headers c (mh s) st) /\
  hdrs s st = loaded_headers c (mh s) st.
Proof.
  intros Hst s. unfold s. rewrite reached_app, run_cons. cbn [run fst step]. unfold crash, boot. cbv zeta. sred.
  apply Nat.ltb_lt in Hst. rewrite Hst. auto.
Qed.
Lemma stopped_src es pb pm st : st < nst c ->
  has_flag FLAG_HAS_SOURCE (loaded_headers c (mh (reached (es ++ [ECrash pb pm]))) st) = hs st.
Proof.
  intros Hst. destruct (stopped_hdr es pb pm st Hst) as (_ & _ & <-).
  apply (i_M_src _ _ _ (k_inv _ _ _ (ok_reached c base h WC (es ++ [ECrash pb pm])))). exact Hst.
Qed.

(** A stripe whose writes all succeeded is not marked as written while its data is
    still in the source only. *)
Lemma settled es pb pm st : st < nst c -> (forall q id off data, In (EAdd q id (RWrite off data)) es -> data <> []) ->
  (has_flag FLAG_WRITTEN (h st) = true -> hs st = true -> has_flag FLAG_FETCHED (h st) = true) ->
  writes_succeeded c (history (es ++ [ECrash pb pm])) st ->
  let H := loaded_headers c (mh (reached (es ++ [ECrash pb pm]))) st in
  has_flag FLAG_WRITTEN H = true -> has_flag FLAG_HAS_SOURCE H = true -> has_flag FLAG_FETCHED H = true.
Proof.
  intros Hst Hne H0 Ws H HW HS. destruct (stopped_hdr es pb pm st Hst) as (Ef & _ & Eh).
  assert (R : released (shf (reached (es ++ [ECrash pb pm])) st) = true).
  { assert (M : marked (reached (es ++ [ECrash pb pm])) st) by (constructor; right; right; left; rewrite Eh; exact HW).
    destruct (marks_origin _ _ M) as [X|(n & q & id & off & data & A & B & C)].
    - unfold H in HS. rewrite stopped_src in HS by auto. specialize (H0 X HS).
      assert (R : released (shf (reached []) st) = true).
      { unfold LazySpec.reached. cbn [run fst]. unfold init, boot. cbv zeta. sred. apply Nat.ltb_lt in Hst. rewrite Hst.
        unfold initial_fetch_state, loaded_headers. cbn [snd]. unfold LazyProofs.hs in HS. rewrite HS, H0. reflexivity. }
      apply (mo_rel _ _ (mono_reached c base h WC [] (es ++ [ECrash pb pm])) _ R).
    - assert (Hd : data <> []).
      { apply in_app_iff in B as [B|[B|[]]]; [eauto|discriminate]. }
      assert (Hi : exists i, i < length data /\ (off + i) / ssc c = st).
      { pose proof (wc_ssc _ _ WC) as Hp. unfold stripes_of in C. apply in_seq in C. unfold stripe_first, stripe_last in C.
        assert (Hl : 0 < length data) by (destruct data; [congruence|cbn; lia]). destruct (Nat.eqb_spec (off + length data) 0); [lia|].
        assert (A1 : off / ssc c <= st) by lia. assert (A2 : st <= (off + length data - 1) / ssc c) by lia.
        pose proof (Nat.mul_div_le (off + length data - 1) (ssc c) ltac:(lia)).
        destruct (Nat.eq_dec st (off / ssc c)) as [->|]; [exists 0; rewrite Nat.add_0_r; auto|].
        exists (st * ssc c - off). pose proof (Nat.mul_succ_div_gt off (ssc c) ltac:(lia)).
        assert (off < st * ssc c) by nia. assert (st * ssc c <= off + length data - 1) by nia.
        split; [lia|]. replace (off + (st * ssc c - off)) with (st * ssc c) by lia. apply Nat.div_mul. lia. }
      destruct Hi as (i & Hi & <-). destruct (Ws n q id off data A) as (d & Hd'); [exists i; auto|].
      eapply acked_write_released; eauto. }
  rewrite Ef in R. fold H in R. unfold initial_fetch_state in R. rewrite HS in R. destruct (has_flag FLAG_FETCHED H); auto.
Qed.

(** The bytes of a stripe of the disk the guest has. *)
Variable enc : V -> list byte.

Lemma stripe_sector st i : i < ssc c -> (st * ssc c + i) / ssc c = st.
Proof. intros Hi. rewrite Nat.div_add_l by lia. rewrite Nat.div_small by lia. lia. Qed.

Lemma guest_stripe es pb pm d st : whole_stripes c -> st < nst c ->
  (forall x, x < target c -> cur (d_hist d x) = logical c (reached (es ++ [ECrash pb pm])) x) ->
  let s := reached (es ++ [ECrash pb pm]) in let H := loaded_headers c (mh s) st in
  stripe_of_disk enc (ssc c) d st =
    if has_flag FLAG_HAS_SOURCE H && negb (has_flag FLAG_FETCHED H) then source_stripe c enc st else disk_stripe c enc s st.
Proof.
  intros Wh Hst Hd s H. destruct (stopped_hdr es pb pm st Hst) as (Ef & _ & _). fold s in Ef, Hd. fold H in Ef.
  assert (E : forall x, In x (seq (st * ssc c) (ssc c)) -> cur (d_hist d x) = if has_flag FLAG_HAS_SOURCE H && negb (has_flag FLAG_FETCHED H) then Some (image c x) else cur (bh s x)).
  { intros x Hx. apply in_seq in Hx. pose proof (wc_ssc _ _ WC). rewrite Hd by (rewrite Wh; nia). unfold logical.
    assert (Ex : x / ssc c = st) by (replace x with (st * ssc c + (x - st * ssc c)) by lia; apply stripe_sector; lia).
    rewrite Ex, Ef. unfold initial_fetch_state. destruct (has_flag FLAG_HAS_SOURCE H); [|reflexivity]. destruct (has_flag FLAG_FETCHED H); reflexivity. }
  unfold stripe_of_disk. destruct (_ && _); unfold source_stripe, disk_stripe, sector_bytes; f_equal; apply map_ext_in; intros x Hx; now rewrite E.
Qed.


Lemma disk_stripe_length es st : (forall v, length (enc v) = 512) -> length (disk_stripe c enc (reached es) st) = ssc c * 512.
Proof.
  intros He. unfold disk_stripe. rewrite concat_length with (n := 512); [now rewrite seq_length|]. intros x _. unfold sector_bytes.
  pose proof (bh_nonempty es x). destruct (bh (reached es) x); [congruence|]. apply He.
Qed.
Lemma source_stripe_length st : (forall v, length (enc v) = 512) -> length (source_stripe c enc st) = ssc c * 512.
Proof. intros He. unfold source_stripe. rewrite concat_length with (n := 512); [now rewrite seq_length|]. intros x _. apply He. Qed.

(** A stripe that was never written and has no source data is zero. *)
Lemma concat_zeros {A} (f : A -> list byte) l n : (forall x, In x l -> f x = repeat 0%N n) -> concat (map f l) = repeat 0%N (length l * n).
Proof.
  intros H. induction l as [|a l IH]; auto. cbn [map concat length]. rewrite H by now left. rewrite IH; [|intros x Hx; apply H; now right].
  cbn [Nat.mul]. now rewrite repeat_app.
Qed.
Lemma unwritten_zero es pb pm st : track c = true -> whole_stripes c -> fresh_disk enc c base h -> st < nst c ->
  let s := reached (es ++ [ECrash pb pm]) in let H := loaded_headers c (mh s) st in
  has_flag FLAG_WRITTEN H = false -> has_flag FLAG_HAS_SOURCE H = false ->
  disk_stripe c enc s st = repeat 0%N (ssc c * 512).
Proof.
  intros Ht Wh Fr Hst s H HW HS. destruct (stopped_hdr es pb pm st Hst) as (_ & Ew & _). fold s in Ew. fold H in Ew. rewrite HW in Ew.
  unfold H in HS. unfold s in HS. rewrite stopped_src in HS by auto.
  unfold disk_stripe. rewrite (concat_zeros _ _ 512); [now rewrite seq_length|]. intros x Hx. apply in_seq in Hx. pose proof (wc_ssc _ _ WC).
  assert (Ex : x / ssc c = st) by (replace x with (st * ssc c + (x - st * ssc c)) by lia; apply stripe_sector; lia).
  unfold sector_bytes. pose proof (bh_nonempty (es ++ [ECrash pb pm]) x) as Ne. pose proof (untouched (es ++ [ECrash pb pm]) x Ht) as U.
  fold s in Ne, U. rewrite Ex in U. specialize (U Hst Ew HS). destruct (bh s x) as [|e l]; [congruence|]. cbn [cur].
  rewrite (U (snd e)) by now left. apply Fr; [rewrite Wh; nia|rewrite Ex..].
  - unfold LazyProofs.hs, has_flag in HS. change FLAG_HAS_SOURCE with (2 ^ 2)%N in HS. rewrite <- (negb_involutive (N.testbit _ _)). 
    destruct (N.testbit (h st) 2) eqn:E; auto. exfalso. apply negb_false_iff, N.eqb_eq in HS.
    pose proof (f_equal (fun z => N.testbit z 2) HS) as Z. cbn beta in Z. rewrite N.land_spec, E in Z. discriminate.
  - (* marked at the start would be marked now *)
    destruct (N.testbit (h st) 1) eqn:E; auto. exfalso.
    assert (X : shw (reached []) st = true).
    { unfold LazySpec.reached. cbn [run fst]. unfold init, boot. cbv zeta. sred. apply Nat.ltb_lt in Hst. rewrite Hst. cbn [andb]. unfold loaded_headers. cbn [snd].
      unfold has_flag. destruct (N.eqb_spec (N.land (h st) FLAG_WRITTEN) 0) as [Z|Z]; auto.
      pose proof (f_equal (fun z => N.testbit z 1) Z) as Z'. cbn beta in Z'. rewrite N.land_spec, E in Z'. discriminate. }
    pose proof (mo_shw _ _ (mono_reached c base h WC [] (es ++ [ECrash pb pm])) _ X) as Y. cbn [app] in Y. fold s in Y. congruence.
Qed.

End P.
