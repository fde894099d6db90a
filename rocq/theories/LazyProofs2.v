(** Further proofs of properties of the lazy device. *)
From Coq Require Import List Arith NArith Bool Lia ZifyBool ZifyNat.
Import ListNotations.
From Verif Require Import Base BaseFacts DiskSpec TraceSpec TraceFacts LazyState MetadataModel LazyModel LazySpec LazyInv LazyTac LazyInvGuest LazyInvFetch LazyInvMeta LazySim LazyInv2 LazyReach LazyRun LazyProofs.

(** ** Transitions of one stripe in the fetcher *)
Section Trans.
Context {V : Type}.
Variable c : cfg V.
Variable hsrc : nat -> bool.
Hypothesis WF : wf c.
Notation Inv := (Inv c hsrc).

Definition busy_st (att : bool) (f : option fstate) : Prop :=
  (att = true /\ f = Some FQueued) \/ (att = false /\ (f = Some FFetching \/ f = Some FFlushing)).

Inductive ftrans (att : bool) (s s' : state V) (st : nat) : Prop :=
| FT_same : att = false -> fsts s' st = fsts s st -> fret s' st = fret s st -> ftrans att s s' st
| FT_admit : att = false -> fsts s st = None -> fsts s' st = Some FQueued -> fret s' st = fret s st -> ftrans att s s' st
| FT_start : att = true -> fsts s st = Some FQueued -> fsts s' st = Some FFetching -> fret s' st = fret s st -> ftrans att s s' st
| FT_flush : att = false -> fsts s st = Some FFetching -> fsts s' st = Some FFlushing -> fret s' st = fret s st -> ftrans att s s' st
| FT_retry : busy_st att (fsts s st) -> fret s st < MAX_FETCH_RETRIES -> fsts s' st = Some FQueued -> fret s' st = S (fret s st) -> ftrans att s s' st
| FT_fail : busy_st att (fsts s st) -> fret s st = MAX_FETCH_RETRIES -> fsts s' st = None -> shf s' st = Failed -> In (st, false) (ffin s') -> ftrans att s s' st
| FT_done : att = false -> fsts s st = Some FFlushing -> fsts s' st = Some FFetched -> In (st, true) (ffin s') -> ftrans att s s' st.

Lemma release_fs st (s : state V) : fsts (release_buf st s) = fsts s /\ fret (release_buf st s) = fret s.
Proof. unfold release_buf. destruct (fbuf s st); auto. unfold return_fbuf. sred. destruct (_ && _); auto. Qed.

Lemma fs_completed st ok (s : state V) x : x <> st -> fsts (fetch_completed c st ok s) x = fsts s x /\ fret (fetch_completed c st ok s) x = fret s x.
Proof.
  intros Hx. rewrite fetch_completed_eq. cbv zeta. destruct (release_fs st s) as [R1 R2].
  assert (U : forall A (f : nat -> A) v, upd f st v x = f x) by (intros; unfold upd; destruct (Nat.eqb_spec x st); congruence).
  destruct ok; sred; rewrite ?U, ?R1, ?R2; auto. destruct (_ <? _); sred; rewrite ?U, ?R1, ?R2; auto. destruct (_ <? _); sred; rewrite ?U, ?R1, ?R2; auto.
Qed.

Lemma ft_failed att s0 st s : st < nst c -> busy_st att (fsts s0 st) -> fsts s st = fsts s0 st -> fret s st = fret s0 st -> fret s st <= MAX_FETCH_RETRIES ->
  ftrans att s0 (fetch_completed c st false s) st.
Proof.
  intros Hst Hb E1 E2 Hr. rewrite fetch_completed_eq. cbv zeta. destruct (release_fs st s) as [R1 R2].
  assert (U : forall A (f : nat -> A) v, upd f st v st = v) by (intros; unfold upd; now rewrite Nat.eqb_refl).
  destruct (Nat.ltb_spec (fret (release_buf st s) st) MAX_FETCH_RETRIES) as [Hl|Hl].
  - apply FT_retry; sred; rewrite ?U, ?R2; auto. rewrite R2 in Hl. lia.
  - destruct (Nat.ltb_spec st (nst c)); [|lia]. apply FT_fail; sred; rewrite ?U; auto; [rewrite R2 in Hl; lia|]. rewrite in_app_iff. cbn; auto.
Qed.

Lemma ft_handle s0 st s x : fsts s = fsts s0 -> fret s = fret s0 -> ftrans false s0 (handle_fetch_request c st s) x.
Proof.
  intros E1 E2. unfold handle_fetch_request. destruct (_ <? _); [|apply FT_same; sred; rewrite ?E1, ?E2; auto]. destruct (released _); [apply FT_same; sred; rewrite ?E1, ?E2; auto|].
  destruct (fsts s st) eqn:Ef; [apply FT_same; sred; rewrite ?E1, ?E2; auto|].
  destruct (Nat.eq_dec x st) as [->|Hne].
  - apply FT_admit; sred; rewrite <- ?E1, <- ?E2; auto. unfold upd. now rewrite Nat.eqb_refl.
  - apply FT_same; sred; rewrite ?E1, ?E2; auto. unfold upd. destruct (Nat.eqb_spec x st); congruence.
Qed.

Lemma ft_step s e st : Ok c hsrc s -> is_crash e = false -> ftrans (attempt s e st) s (fst (step c s e)) st.
Proof.
  intros [HI [d HS] H2] Hc. unfold step, attempt.
  assert (Sm : forall s' : state V, fsts s' = fsts s -> fret s' = fret s -> ftrans false s s' st) by (intros s' E1 E2; apply FT_same; rewrite ?E1, ?E2; auto).
  assert (W : forall f, ftrans false s (f s) st -> ftrans false s (worker f s) st) by (intros f Hf; unfold worker; destruct (wdone s); auto).
  destruct e as [q id r|q|q|n ok|n i|n i|n i v|n| | | |a|n ok| | |n ok| |pb pm]; try discriminate;
    (destruct (panic s) eqn:Hp; [cbn [negb andb]; apply Sm; auto|]); cbn [fst negb andb].
  - assert (G : guest_frame s (add_req c q id r s)) by (apply gf_add_req; intros m Hm; eapply ops_next; eauto). apply Sm; apply G.
  - assert (G : guest_frame s (process_front c q s)) by (apply gf_process_front; intros r Hr; eapply queue_serials; eauto). apply Sm; apply G.
  - apply Sm; auto.
  - destruct (ops s n) as [[[q id|st'] dv k]|] eqn:Eo.
    + unfold op_done. rewrite Eo. destruct (_ && _); [apply Sm; auto|]. cbn [fst]. destruct ok; [destruct k|]; apply Sm; auto.
    + destruct (op_done_fetch_eq c n ok s st' dv k Eo) as [->| ->]; [apply Sm; auto|].
      destruct (fetch_op_unrel c hsrc _ _ _ _ _ HI Eo) as [Hst Hr]. destruct (i_F_op _ _ _ HI _ _ _ _ Eo) as [_ Hk].
      assert (Hfs : fsts s st' = Some FFetching \/ fsts s st' = Some FFlushing) by (destruct k; tauto).
      assert (X : fsts (if ok then complete_medium n k (set_ops (upd (ops s) n None) s) else set_ops (upd (ops s) n None) s) = fsts s /\
        fret (if ok then complete_medium n k (set_ops (upd (ops s) n None) s) else set_ops (upd (ops s) n None) s) = fret s).
      { destruct ok; [destruct k|]; auto. }
      set (s1 := if ok then _ else _) in *. clearbody s1. destruct X as [X1 X2]. unfold tgt_done.
      destruct (Nat.eq_dec st st') as [<-|Hne].
      * destruct ok.
        -- rewrite X1. destruct Hfs as [Hf|Hf]; rewrite Hf.
           ++ apply FT_flush; auto; unfold start_flush; sred; rewrite ?X2; auto. unfold upd. now rewrite Nat.eqb_refl.
           ++ rewrite fetch_completed_eq. cbv zeta. apply FT_done; auto; sred; [unfold upd; now rewrite Nat.eqb_refl|]. rewrite in_app_iff. cbn; auto.
        -- apply ft_failed; auto; [right; auto|now rewrite X1|now rewrite X2|rewrite X2; apply (i_F_ret _ _ _ HI)].
      * assert (FC : forall b, ftrans false s (fetch_completed c st' b s1) st).
        { intros b. destruct (fs_completed st' b s1 st Hne) as [F1 F2]. apply FT_same; auto; [rewrite F1, X1|rewrite F2, X2]; auto. }
        destruct ok; auto. destruct (fsts s1 st') as [[| | |]|]; auto. apply FT_same; auto; unfold start_flush; sred; rewrite ?X1, ?X2; auto.
        unfold upd. destruct (Nat.eqb_spec st st'); [congruence|auto].
    + unfold op_done. rewrite Eo. apply Sm; auto.
  - unfold base_apply. destruct (ops s n) as [[o [] [| |]]|]; try solve [apply Sm; auto]. destruct (write_value _ _ _); try solve [apply Sm; auto]. destruct (_ && _); apply Sm; auto.
  - unfold read_sample. destruct (ops s n) as [[o dv0 [| |]]|]; try solve [apply Sm; auto]. destruct (_ && _); apply Sm; auto.
  - unfold scribble. destruct (sops s n) as [[? ?]|]; apply Sm; auto.
  - unfold meta_apply. destruct (mops s n) as [[? ? ? []|]|]; apply Sm; auto.
  - apply W. unfold worker_recv. destruct (mq s) as [|[x|x] l]; [apply Sm; auto|apply ft_handle; auto|apply Sm; auto].
  - apply Sm; auto.
  - apply W. unfold update_autofetch. destruct (autofetch c); [|apply Sm; auto]. destruct (fq s); [|apply Sm; auto]. destruct (fauto s); [apply Sm; auto|]. apply ft_handle; auto.
  - unfold worker. destruct (wdone s) eqn:Ew; [apply Sm; auto|]. cbn [negb andb]. unfold start_fetch.
    destruct (fq s) as [|st' q] eqn:Eq; [apply Sm; auto|]. destruct (favail s) as [|b av] eqn:Ea; [apply Sm; auto|]. cbv zeta.
    destruct (queued_unrel c hsrc s st' q HI Eq) as [Hst Hr]. assert (Hf : fsts s st' = Some FQueued) by (apply (i_F_queue _ _ _ HI); rewrite Eq; now left).
    destruct (Nat.eqb_spec st' st) as [->|Hne].
    + destruct (source_accepts _ _ _ _).
      * apply FT_start; auto; sred; auto. unfold upd. now rewrite Nat.eqb_refl.
      * apply ft_failed; auto; [left; auto|apply (i_F_ret _ _ _ HI)].
    + destruct (source_accepts _ _ _ _).
      * apply FT_same; auto; sred; auto. unfold upd. destruct (Nat.eqb_spec st st'); congruence.
      * match goal with |- ftrans _ _ (fetch_completed _ _ _ ?a) _ => destruct (fs_completed st' false a st (not_eq_sym Hne)) as [F1 F2] end.
        apply FT_same; auto.
  - apply W. unfold src_done. destruct (sops s n) as [[st' b]|] eqn:Es; [|apply Sm; auto]. cbv zeta.
    destruct (i_F_sop _ _ _ HI _ _ _ Es) as [Hf Hb]. destruct (i_F_range _ _ _ HI _ _ Hf) as [Hst _].
    destruct ok; sred; rewrite Hb.
    + unfold start_write. cbv zeta. destruct (_ <? _); apply Sm; auto.
    + destruct (Nat.eq_dec st st') as [->|Hne].
      * apply ft_failed; auto; [right; auto|apply (i_F_ret _ _ _ HI)].
      * match goal with |- ftrans _ _ (fetch_completed _ _ _ ?a) _ => destruct (fs_completed st' false a st Hne) as [F1 F2] end.
        apply FT_same; auto.
  - apply W. apply Sm; auto.
  - apply W. unfold start_meta_write. destruct (mqueue s) as [|[x k] q]; [apply Sm; auto|]. destruct (mavail s); [apply Sm; auto|]. cbv zeta.
    destruct (existsb _ _); [apply Sm; auto|]. destruct (_ <? _); [|apply Sm; auto]. destruct (has_flag _ _); apply Sm; auto.
  - apply W.
    assert (G : forall s1 x, fsts s1 = fsts s -> fret s1 = fret s -> ftrans false s (meta_completion c x ok s1) st).
    { intros s1 x E1 E2. unfold meta_completion. destruct (mupd s1 x) as [u|]; [|apply Sm; auto]. destruct ok; [destruct (u_stage u)|].
      - unfold meta_written, return_mbuf. destruct (_ && _); apply Sm; auto.
      - unfold meta_flushed, set_stripe_header. cbv zeta. sred. destruct (_ <? _); [|apply Sm; auto].
        destruct (has_flag FLAG_FETCHED _), (has_flag FLAG_WRITTEN _); try destruct (released _); apply Sm; auto.
      - unfold meta_failed, return_mbuf. cbv zeta. destruct (u_stage u); try destruct (_ && _); apply Sm; auto. }
    unfold meta_done. destruct (mops s n) as [[? ? ? ?|? ?]|]; [| |apply Sm; auto]; cbv zeta.
    + destruct (_ && _); [apply Sm; auto|]. apply G; destruct ok; auto.
    + apply G; destruct ok; auto.
  - apply W. unfold disconnect. destruct (_ && _); apply Sm; auto.
Qed.

(** Number of attempts since the last request, by fetcher state. *)
Definition attempts_ok (s : state V) (st n : nat) : Prop :=
  n <= 4 /\
  match fsts s st with
  | Some FQueued => n = fret s st
  | Some FFetching | Some FFlushing => n = S (fret s st)
  | _ => True
  end.

Definition next_attempts (s s' : state V) (e : event V) (st n : nat) : nat :=
  if is_crash e then 0
  else match fsts s st with
       | None => if is_some (fsts s' st) then 0 else n
       | Some _ => if attempt s e st then S n else n
       end.

Lemma attempts_step s e st n : Ok c hsrc s -> attempts_ok s st n -> attempts_ok (fst (step c s e)) st (next_attempts s (fst (step c s e)) e st n).
Proof.
  intros HO [Hn Hm]. unfold next_attempts. destruct (is_crash e) eqn:Ec.
  - destruct e; try discriminate. split; [lia|]. cbn [step fst]. unfold crash, boot. cbv zeta. sred. auto.
  - pose proof (ft_step s e st HO Ec) as T. pose proof (ef_ret _ _ (j_ef _ _ _ (k_inv2 _ _ _ HO)) st) as Hret. set (s' := fst (step c s e)) in *. clearbody s'.
    pose proof (i_F_ret _ _ _ (k_inv _ _ _ HO) st) as Hmax. unfold MAX_FETCH_RETRIES in *.
    unfold attempts_ok. destruct T as [A B C|A B C D|A B C D|A B C D|A B C D|A B C D E|A B C D].
    + rewrite A, B, C. destruct (fsts s st) as [[| | |]|]; cbn [is_some]; auto.
    + rewrite B, C. cbn [is_some]. split; [lia|]. rewrite D, Hret; auto.
    + rewrite A, B, C. rewrite B in Hm. rewrite D. lia.
    + rewrite A, B, C. rewrite B in Hm. rewrite D. lia.
    + rewrite C. destruct A as [[-> E]|[-> E]].
      * rewrite E in *. rewrite D. lia.
      * assert (X : n = S (fret s st)) by (destruct E as [E|E]; rewrite E in Hm; auto). rewrite D.
        destruct E as [E|E]; rewrite E; lia.
    + rewrite C. destruct A as [[-> F]|[-> F]].
      * rewrite F in *. split; auto. lia.
      * destruct F as [F|F]; rewrite F; auto.
    + rewrite A, B, C. auto.
Qed.

Lemma attempts_cons st s e es n : attempts c st s (e :: es) n = attempts c st (fst (step c s e)) es (next_attempts s (fst (step c s e)) e st n).
Proof. reflexivity. Qed.

Lemma attempts_run es st : forall s n, Ok c hsrc s -> attempts_ok s st n ->
  attempts_ok (fst (run c s es)) st (attempts c st s es n).
Proof.
  induction es as [|e es IH]; intros s n HO H; auto. rewrite attempts_cons, run_cons. apply IH.
  - apply ok_step; auto.
  - apply attempts_step; auto.
Qed.

Lemma attempts_app es1 st : forall s es2 n, attempts c st s (es1 ++ es2) n = attempts c st (fst (run c s es1)) es2 (attempts c st s es1 n).
Proof.
  induction es1 as [|e es1 IH]; intros s es2 n; auto.
  change ((e :: es1) ++ es2) with (e :: (es1 ++ es2)). rewrite !attempts_cons, run_cons. apply IH.
Qed.

End Trans.

Section P2.
Context {V : Type}.
Variable c : cfg V.
Variable base : nat -> V.
Variable h : nat -> N.
Hypothesis WC : well_configured c h.
Notation hs := (hs h).
Notation reached := (reached c base h).
Notation history := (history c base h).
Let WF := wf_of c h WC.

Lemma run_split es : forall s x, In x (snd (run c s es)) ->
  exists es1 e es2, es = es1 ++ e :: es2 /\ In x (snd (step c (fst (run c s es1)) e)).
Proof.
  induction es as [|e es IH]; intros s x Hx; [destruct Hx|]. cbn [run] in Hx. destruct (step c s e) as [s1 t1] eqn:Es.
  destruct (run c s1 es) as [s2 t2] eqn:Er. cbn [snd] in Hx. apply in_app_iff in Hx. destruct Hx as [Hx|Hx].
  - exists [], e, es. split; auto. cbn [run fst]. rewrite Es. auto.
  - destruct (IH s1 x) as (es1 & e' & es2 & -> & Hi); [rewrite Er; auto|]. exists (e :: es1), e', es2. split; auto.
    rewrite run_cons, Es. auto.
Qed.

(** What a successful completion of a guest request was. *)
Lemma done_true_op s e n q id d : In (TDone n q id true d) (snd (step c s e)) ->
  exists dv k, ops s n = Some (mk_op (OGuest q id) dv k).
Proof.
  unfold step. intros H. destruct e; cbn [snd] in H; try (destruct (panic s); cbn [snd] in H; try (now destruct H)).
  - unfold take_finished in H. cbn [snd] in H. apply in_map_iff in H. destruct H as ([a b] & H & _). discriminate.
  - unfold op_done in H. destruct (ops s n0) as [[o dv k]|] eqn:Eo; [|destruct H]. destruct (_ && _); [destruct H|]. destruct o as [q' id'|st].
    + destruct H as [H|[]]. injection H as -> -> -> _ _. eauto.
    + destruct (wdone s); destruct H.
Qed.

Lemma acked_write_marked es n q id off data d i : track c = true ->
  In (TIssue n q id (RWrite off data)) (history es) -> In (TDone n q id true d) (history es) -> i < length data ->
  shw (reached es) ((off + i) / ssc c) = true.
Proof.
  intros Ht Hi Hd Hil. destruct (run_split _ _ _ Hd) as (es1 & e & es2 & -> & Hs).
  pose proof (mono_reached c base h WC es1 (e :: es2)) as M. apply (mo_shw _ _ M). fold (reached es1) in Hs.
  destruct (done_true_op _ _ _ _ _ _ Hs) as (dv & k & Ho).
  apply (writing_released c base h WC es1); auto. 
  destruct (refines c base h WC es1) as (dk & [des Hdr] & HS). destruct (s_guest _ _ _ HS _ _ _ _ _ Ho) as (k' & Hk & Km).
  destruct (issued_run (target c) _ _ _ _ Hdr) as (Is & _ & _). destruct (Is _ _ _ _ Hk) as (t0 & r & t3 & Et & Kr & _).
  destruct (refines c base h WC (es1 ++ e :: es2)) as (dk2 & Hb2 & _).
  pose proof (disk_completions_match (target c) _ _ _ Hb2) as [_ U].
  assert (r = RWrite off data).
  { rewrite history_app in Hi, U. rewrite Et in Hi, U. set (tl := snd _) in *. clearbody tl.
    assert (Uq : forall a b x y r1 r2, (t0 ++ TIssue n q id r :: t3) ++ tl = a ++ TIssue n x y r1 :: b -> In (TIssue n q id r2) a -> False).
    { intros a b x y r1 r2 E Hin. eapply U; eauto. }
    rewrite <- app_assoc in Hi, Uq. apply in_app_iff in Hi. cbn [app] in *. destruct Hi as [Hi|[Hi|Hi]].
    - exfalso. apply (Uq t0 (t3 ++ tl) q id r _ eq_refl Hi).
    - congruence.
    - exfalso. apply in_split in Hi. destruct Hi as (u1 & u2 & Eu). apply (Uq (t0 ++ TIssue n q id r :: u1) u2 q id (RWrite off data) r).
      + rewrite Eu. rewrite <- app_assoc. reflexivity.
      + apply in_app_iff. right. now left. }
  subst r. unfold kind_of in Kr. destruct k' as [|off' data' ap'|]; try tauto. destruct Kr as [<- <-].
  unfold kmatch in Km. destruct dv; destruct k as [off2 len2 d2 ap2| |]; try tauto. destruct Km as (-> & <- & -> & _).
  exists n, q, id, off, (length data), (WData data), ap2. split; auto. lia.
Qed.

(** ** Bounded concurrency *)
Lemma pigeon (P : nat -> nat -> Prop) (l : list nat) k : NoDup l ->
  (forall x, In x l -> exists b, P x b /\ b < k) -> (forall x y b, P x b -> P y b -> x = y) -> length l <= k.
Proof.
  intros Hn Hp Hi.
  assert (X : exists bs, length bs = length l /\ NoDup bs /\ (forall b, In b bs -> b < k /\ exists x, In x l /\ P x b)).
  { clear - Hn Hp Hi. induction Hn as [|x l Hx Hn IH]; [exists []; split; [auto|split; [constructor|intros b []]]|].
    destruct IH as (bs & E & Nb & Hb); [intros; apply Hp; now right|]. destruct (Hp x (or_introl eq_refl)) as (b & Pb & Lb).
    exists (b :: bs). cbn [length]. rewrite E. split; auto. split.
    - constructor; auto. intros Hin. destruct (Hb b Hin) as (_ & y & Hy & Py). rewrite (Hi x y b Pb Py) in Hx. auto.
    - intros b' [<-|Hin]; [split; auto; exists x; split; auto; now left|]. destruct (Hb b' Hin) as (A & y & B & C). split; auto. exists y. split; auto. now right. }
  destruct X as (bs & E & Nb & Hb). rewrite <- E. rewrite <- (seq_length k 0). apply NoDup_incl_length; auto.
  intros b Hin. apply in_seq. destruct (Hb b Hin). lia.
Qed.

Lemma fetching_bound es l : NoDup l -> (forall st, In st l -> fetching (reached es) st) -> length l <= 16.
Proof.
  intros Hn Hf. destruct (ok_reached c base h WC es) as [HI _ [HE _ _]].
  apply (pigeon (fun st b => fbuf (reached es) st = Some b)); auto.
  - intros st Hin. destruct (ef_buf _ _ HE st (Hf st Hin)) as (b & Eb). exists b. split; auto. apply (i_F_buf _ _ _ HI _ _ Eb).
  - apply (i_F_bufinj _ _ _ HI).
Qed.

Lemma meta_writes_bound es l : NoDup l -> (forall n, In n l -> exists st g b ap, mops (reached es) n = Some (MWrite st g b ap)) -> length l <= 16.
Proof.
  intros Hn Hf. destruct (ok_reached c base h WC es) as [HI _ _].
  apply (pigeon (fun n b => exists st g ap, mops (reached es) n = Some (MWrite st g b ap))); auto.
  - intros n Hin. destruct (Hf n Hin) as (st & g & b & ap & E). exists b. split; eauto. destruct (i_M_write _ _ _ HI _ _ _ _ _ E) as (_ & (u & Eu & Es & <-) & _).
    apply (i_M_ubuf _ _ _ HI _ _ Eu Es).
  - intros n m b (st & g & ap & E) (st' & g' & ap' & E'). destruct (i_M_write _ _ _ HI _ _ _ _ _ E) as (_ & (u & Eu & Es & Eb) & _).
    destruct (i_M_write _ _ _ HI _ _ _ _ _ E') as (_ & (u' & Eu' & Es' & Eb') & _).
    assert (st = st') by (eapply (i_M_ubufinj _ _ _ HI); eauto; congruence). subst. eapply (i_M_uniq _ _ _ HI); eauto.
Qed.

(** ** Metadata updates *)
Lemma meta_serial es n m o o' : mops (reached es) n = Some o -> mops (reached es) m = Some o' ->
  group_of c (mop_stripe o) = group_of c (mop_stripe o') -> n = m.
Proof.
  intros E E' Hg. destruct (ok_reached c base h WC es) as [HI _ _].
  assert (U : forall n o, mops (reached es) n = Some o -> exists u, mupd (reached es) (mop_stripe o) = Some u).
  { intros k [st g b ap|st snap] X; cbn [mop_stripe].
    - destruct (i_M_write _ _ _ HI _ _ _ _ _ X) as (_ & (u & Eu & _) & _). eauto.
    - destruct (i_M_flush _ _ _ HI _ _ _ X) as ((u & Eu & _) & _). eauto. }
  destruct (U _ _ E) as (u & Eu). destruct (U _ _ E') as (u' & Eu').
  eapply (i_M_uniq _ _ _ HI); eauto. eapply (i_M_upd_uniq _ _ _ HI); eauto.
Qed.

Lemma meta_contents es n st g b ap : mops (reached es) n = Some (MWrite st g b ap) ->
  st < nst c /\ g = group_of c st /\
  exists f0, (f0 = FLAG_FETCHED \/ f0 = FLAG_WRITTEN) /\ ~ acknowledged (reached es) f0 st /\
    forall st', st' < nst c -> group_of c st' = g ->
      has_flag FLAG_HAS_SOURCE (mbufs (reached es) b st') = has_flag FLAG_HAS_SOURCE (h st') /\
      forall f, f = FLAG_FETCHED \/ f = FLAG_WRITTEN ->
        (has_flag f (mbufs (reached es) b st') = true <-> acknowledged (reached es) f st' \/ (st' = st /\ f = f0)).
Proof.
  intros E. destruct (ok_reached c base h WC es) as [HI _ [_ HM _]]. set (s := reached es) in *. clearbody s.
  destruct (i_M_write _ _ _ HI _ _ _ _ _ E) as (-> & (u & Eu & Es & Eb) & Ag & _).
  destruct (i_M_upd _ _ _ HI _ _ Eu) as (Hst & _ & _ & Hhd & Hm1 & Hm2). split; auto. split; auto. exists (u_mask u). split; [tauto|]. split.
  { unfold acknowledged. intros [[X Y]|[X Y]]; destruct Hm2 as [[A B]|[A B]]; try congruence; rewrite A in X; discriminate. }
  intros st' Hst' Hg. rewrite (Ag st' Hst' Hg). split; [apply (i_M_src _ _ _ HI st' Hst')|].
  assert (Uq : forall u', mupd s st' = Some u' -> st' = st) by (intros u' X; eapply (i_M_upd_uniq _ _ _ HI); eauto).
  intros f [->| ->]; split.
  - intros X. destruct (em_flagF _ _ _ HM st' Hst' X) as [Y|(u' & Y & Z)]; [left; left; auto|]. right. assert (st' = st) by eauto. subst. rewrite Eu in Y. injection Y as ->. auto.
  - intros [[[_ X]|[X _]]|[-> X]]; [|discriminate|rewrite X; auto]. apply (i_M_ackF _ _ _ HI st' X).
  - intros X. destruct (em_flagW _ _ _ HM st' Hst' X) as [Y|(u' & Y & Z)]; [left; right; auto|]. right. assert (st' = st) by eauto. subst. rewrite Eu in Y. injection Y as ->. auto.
  - intros [[[X _]|[_ X]]|[-> X]]; [discriminate| |rewrite X; auto]. apply (i_M_ackW _ _ _ HI st' X).
Qed.

(** ** Disconnection from the source *)
Lemma slive_step s e : Ok c hs s -> slive s = false -> slive (fst (step c s e)) = false.
Proof.
  intros [HI [d HS] [_ _ HC]] Hl. unfold step.
  assert (W : forall f, slive (f s) = false -> slive (worker f s) = false) by (intros f Hf; unfold worker; destruct (wdone s); auto).
  assert (FC : forall st ok (s1 : state V), slive s1 = false -> slive (fetch_completed c st ok s1) = false).
  { intros st ok s1 H1. rewrite fetch_completed_eq. cbv zeta. destruct (release_buf_frame st s1) as (_ & _ & _ & R & _).
    destruct ok; sred; [congruence|]. destruct (_ <? _); sred; [congruence|]. destruct (_ <? _); sred; congruence. }
  assert (HF : forall st (s1 : state V), slive s1 = false -> slive (handle_fetch_request c st s1) = false).
  { intros st s1 H1. unfold handle_fetch_request. destruct (_ <? _); auto. destruct (released _); auto. destruct (fsts s1 st); auto. }
  destruct e as [q id r|q|q|n ok|n i|n i|n i v|n| | | |a|n ok| | |n ok| |pb pm]; try (destruct (panic s) eqn:Hp; [solve [auto]|]); cbn [fst].
  - erewrite g_slive; [exact Hl|]. apply gf_add_req. intros m Hm; eapply ops_next; eauto.
  - erewrite g_slive; [exact Hl|]. apply gf_process_front. intros r Hr; eapply queue_serials; eauto.
  - auto.
  - destruct (ops s n) as [[[q id|st'] dv k]|] eqn:Eo; [| |unfold op_done; rewrite Eo; auto].
    + unfold op_done. rewrite Eo. destruct (_ && _); auto. cbn [fst]. destruct ok; [destruct k|]; auto.
    + destruct (op_done_fetch_eq c n ok s st' dv k Eo) as [->| ->]; auto.
      assert (X : slive (if ok then complete_medium n k (set_ops (upd (ops s) n None) s) else set_ops (upd (ops s) n None) s) = false).
      { destruct ok; [destruct k|]; auto. }
      set (s1 := if ok then _ else _) in *. clearbody s1. unfold tgt_done. destruct ok; auto. destruct (fsts s1 st') as [[| | |]|]; auto.
  - unfold base_apply. destruct (ops s n) as [[o [] [| |]]|]; auto. destruct (write_value _ _ _); auto. destruct (_ && _); auto.
  - unfold read_sample. destruct (ops s n) as [[o dv0 [| |]]|]; auto. destruct (_ && _); auto.
  - unfold scribble. destruct (sops s n) as [[? ?]|]; auto.
  - unfold meta_apply. destruct (mops s n) as [[? ? ? []|]|]; auto.
  - apply W. unfold worker_recv. destruct (mq s) as [|[x|x] l]; auto.
  - auto.
  - apply W. unfold update_autofetch. destruct (autofetch c); auto. destruct (fq s); auto. destruct (fauto s); auto.
  - apply W. unfold start_fetch. destruct (fq s) as [|st' q] eqn:Eq; auto. destruct (favail s) as [|b av] eqn:Ea; auto. cbv zeta. destruct (source_accepts _ _ _ _); auto.
  - apply W. unfold src_done. destruct (sops s n) as [[st' b]|] eqn:Es; auto. cbv zeta. destruct ok; sred; (destruct (fbuf s st'); auto). unfold start_write. cbv zeta. destruct (_ <? _); auto.
  - apply W. auto.
  - apply W. unfold start_meta_write. destruct (mqueue s) as [|[x k] q]; auto. destruct (mavail s); auto. cbv zeta.
    destruct (existsb _ _); auto. destruct (_ <? _); auto. destruct (has_flag _ _); auto.
  - apply W.
    assert (G : forall (s1 : state V) x, slive s1 = false -> slive (meta_completion c x ok s1) = false).
    { intros s1 x E1. unfold meta_completion. destruct (mupd s1 x) as [u|]; auto. destruct ok; [destruct (u_stage u)|].
      - unfold meta_written, return_mbuf. destruct (_ && _); auto.
      - unfold meta_flushed, set_stripe_header. cbv zeta. sred. destruct (_ <? _); auto.
        destruct (has_flag FLAG_FETCHED _), (has_flag FLAG_WRITTEN _); try destruct (released _); auto.
      - unfold meta_failed, return_mbuf. cbv zeta. destruct (u_stage u); try destruct (_ && _); auto. }
    unfold meta_done. destruct (mops s n) as [[? ? ? ?|? ?]|]; auto; cbv zeta.
    + destruct (_ && _); auto. apply G; destruct ok; auto.
    + apply G; destruct ok; auto.
  - apply W. unfold disconnect. destruct (_ && _); auto.
  - unfold crash, boot. cbv zeta. sred. apply negb_false_iff. unfold all_fetched. apply forallb_forall. intros st Hst. apply in_seq in Hst.
    pose proof (cn_live _ _ _ HC Hl st ltac:(lia)) as Hr. destruct (loaded_crash c hs pm s st HI) as (e & Hi & ->).
    rewrite (proj2 (i_M_src _ _ _ HI st ltac:(lia)) e Hi). pose proof (proj1 (i_M_shf _ _ _ HI st) ltac:(lia)) as X.
    destruct (shf s st) eqn:Ef; try discriminate; rewrite X; auto. rewrite (proj2 (i_M_ackF _ _ _ HI st Ef) e Hi). auto.
Qed.

Lemma slive_run es2 : forall s, Ok c hs s -> slive s = false -> slive (fst (run c s es2)) = false.
Proof.
  induction es2 as [|e es IH]; intros s HO Hl; auto. rewrite run_cons. apply IH; [apply ok_step; auto|apply slive_step; auto].
Qed.

Lemma disconnected_idle es : slive (reached es) = false ->
  (forall st, st < nst c -> released (shf (reached es) st) = true) /\ fq (reached es) = [] /\ forall n, sops (reached es) n = None.
Proof.
  intros Hl. destruct (ok_reached c base h WC es) as [HI _ [_ _ HC]]. pose proof (cn_live _ _ _ HC Hl) as Hr. split; auto. split.
  - destruct (fq (reached es)) as [|st q] eqn:Eq; auto. exfalso. destruct (queued_unrel c hs _ st q HI Eq) as [A B]. rewrite Hr in B; [discriminate|auto].
  - intros n. destruct (sops (reached es) n) as [[st b]|] eqn:Es; auto. exfalso. destruct (i_F_sop _ _ _ HI _ _ _ Es) as [Hf _].
    destruct (i_F_range _ _ _ HI _ _ Hf) as [Hst _]. pose proof (i_F_unrel _ _ _ HI _ _ Hf ltac:(discriminate)). rewrite Hr in H by auto. discriminate.
Qed.

(** ** Reads without copying *)
Definition single_stripe_read (r : req V) : Prop :=
  match r with RRead off len => 0 < len /\ off / ssc c = (off + len - 1) / ssc c | RWrite _ _ => False | RFlush => True end.

Definition lazy_idle (s : state V) : Prop :=
  mq s = [] /\ (forall q, chq s q = []) /\ fq s = [] /\ fauto s = [] /\ (forall st, fsts s st = None) /\ (forall n, sops s n = None).

Lemma idle_add s q id r : has_image c = true -> single_stripe_read r -> lazy_idle s -> lazy_idle (add_req c q id r s).
Proof.
  intros Him Hr H. unfold add_req. cbv zeta. destruct r as [off len|off data|].
  - unfold add_read. destruct (fetch_status _ _ _); [|exact H..]. destruct Hr as [Hl He].
    assert (E : (stripe_first c off =? stripe_last c off len) = true).
    { unfold stripe_first, stripe_last. destruct (Nat.eqb_spec (off + len) 0); [lia|]. apply Nat.eqb_eq. auto. }
    rewrite E, Him. exact H.
  - destruct Hr.
  - exact H.
Qed.

Lemma idle_front s q : lazy_idle s -> lazy_idle (process_front c q s).
Proof. intros H. unfold process_front. destruct H as (A & B & C). rewrite B. repeat split; tauto. Qed.

Lemma idle_step s e : has_image c = true -> autofetch c = false -> (forall q id r, e = EAdd q id r -> single_stripe_read r) ->
  Ok c hs s -> lazy_idle s -> lazy_idle (fst (step c s e)).
Proof.
  intros Him Ha He [HI [d HS] _] H. unfold step. pose proof H as (I1 & I2 & I3 & I4 & I5 & I6).
  assert (NF : forall n st dv k, ops s n = Some (mk_op (OFetch st) dv k) -> False).
  { intros n st dv k Eo. destruct (i_F_op _ _ _ HI _ _ _ _ Eo) as [_ Hk]. rewrite !I5 in Hk. destruct k; intuition discriminate. }
  assert (W : forall f, lazy_idle (f s) -> lazy_idle (worker f s)) by (intros f Hf; unfold worker; destruct (wdone s); auto).
  destruct e as [q id r|q|q|n ok|n i|n i|n i v|n| | | |a|n ok| | |n ok| |pb pm]; try (destruct (panic s) eqn:Hp; [solve [auto]|]); cbn [fst].
  - apply idle_add; eauto.
  - apply idle_front; auto.
  - exact H.
  - unfold op_done. destruct (ops s n) as [[[q id|st] dv k]|] eqn:Eo; [|exfalso; eauto|auto]. destruct (_ && _); auto. cbn [fst]. destruct ok; [destruct k|]; exact H.
  - unfold base_apply. destruct (ops s n) as [[o [] [| |]]|]; auto. destruct (write_value _ _ _); auto. destruct (_ && _); auto.
  - unfold read_sample. destruct (ops s n) as [[o dv0 [| |]]|]; auto. destruct (_ && _); auto.
  - unfold scribble. rewrite I6. auto.
  - unfold meta_apply. destruct (mops s n) as [[? ? ? []|]|]; auto.
  - apply W. unfold worker_recv. rewrite I1. auto.
  - auto.
  - apply W. unfold update_autofetch. rewrite Ha. auto.
  - apply W. unfold start_fetch. rewrite I3. auto.
  - apply W. unfold src_done. rewrite I6. auto.
  - apply W. auto.
  - apply W. unfold start_meta_write. destruct (mqueue s) as [|[x k] q]; auto. destruct (mavail s); auto. cbv zeta.
    destruct (existsb _ _); auto. destruct (_ <? _); auto. destruct (has_flag _ _); auto.
  - apply W.
    assert (G : forall (s1 : state V) x, lazy_idle s1 -> lazy_idle (meta_completion c x ok s1)).
    { intros s1 x E1. unfold meta_completion. destruct (mupd s1 x) as [u|]; auto. destruct ok; [destruct (u_stage u)|].
      - unfold meta_written, return_mbuf. destruct (_ && _); exact E1.
      - unfold meta_flushed, set_stripe_header. cbv zeta. sred. destruct (_ <? _); [|exact E1].
        destruct (has_flag FLAG_FETCHED _), (has_flag FLAG_WRITTEN _); try destruct (released _); exact E1.
      - unfold meta_failed, return_mbuf. cbv zeta. destruct (u_stage u); try destruct (_ && _); exact E1. }
    unfold meta_done. destruct (mops s n) as [[? ? ? ?|? ?]|]; auto; cbv zeta.
    + destruct (_ && _); auto. apply G; destruct ok; auto.
    + apply G; destruct ok; auto.
  - apply W. unfold disconnect. destruct (_ && _); auto.
  - unfold crash, boot. cbv zeta. unfold lazy_idle. sred. rewrite Ha. repeat split; auto.
Qed.

Lemma idle_run es : has_image c = true -> autofetch c = false -> (forall q id r, In (EAdd q id r) es -> single_stripe_read r) ->
  forall s, Ok c hs s -> lazy_idle s -> lazy_idle (fst (run c s es)).
Proof.
  intros Him Ha. induction es as [|e es IH]; intros He s HO H; auto. rewrite run_cons. apply IH.
  - intros q id r X. apply (He q id). now right.
  - apply ok_step; auto.
  - apply idle_step; auto. intros q id r ->. apply (He q id). now left.
Qed.

Lemma no_copy es : has_image c = true -> autofetch c = false -> (forall q id r, In (EAdd q id r) es -> single_stripe_read r) ->
  forall st, fsts (reached es) st = None /\ forall n, sops (reached es) n = None.
Proof.
  intros Him Ha He st. assert (H : lazy_idle (reached es)).
  { apply idle_run; auto.
    - apply (ok_reached c base h WC []).
    - unfold init, boot, lazy_idle. cbv zeta. sred. rewrite Ha. repeat split; auto. }
  destruct H as (_ & _ & _ & _ & A & B). auto.
Qed.

End P2.
