(** C30: exporting an archive.  C47: the archive stripe source. *)
From Coq Require Import List Arith NArith ZArith Bool Lia Permutation ZifyNat ZifyN ZifyBool.
Import ListNotations.
From Verif Require Import Base BaseFacts CryptModel KeyModel ArchiveModel ArchiverModel ArchiveSpec ArchiveToy
  ArchiveProofs ArchiverProofs ArchiverProofs2 ArchiveProps ArchiveSourceModel ArchiveSourceProofs ExportProofs ArchiveExamples.

Arguments object_key : simpl never.

(** ** C47: the archive stripe source *)

(** The requests made in a history, as (stripe, buffer). *)
Definition requests (es : list qevent) : list (nat * nat) :=
  flat_map (fun e => match e with QRequest i b => [(i, b)] | QPoll _ => [] end) es.

(** Every get answered in a history was answered as [D] allows. *)
Definition answers (D : list byte -> option (list byte) -> Prop) (es : list qevent) : Prop :=
  Forall (fun e => match e with QRequest _ _ => True | QPoll cs => Forall (fun c => D (fst c) (snd c)) cs end) es.

Lemma qrun_inv : forall P src D, lawful P -> source_typed src -> forall es s s' outs,
  qinv P src D s -> answers D es -> qrun P src s es = Some (s', outs) ->
  qinv P src D s' /\ Permutation (requests es ++ q_outstanding s) (map fst outs ++ q_outstanding s').
Proof.
  intros P src D L T. induction es as [|[i b|cs] es IH]; intros s s' outs I A H; cbn [qrun] in H.
  - injection H as <- <-. cbn. auto.
  - destruct (existsb _ _) eqn:E; [discriminate|]. inversion A; subst.
    assert (Hb : ~ In b (map snd (q_outstanding s))).
    { intros X. apply in_map_iff in X. destruct X as (y & Hy & Hin). assert (existsb (fun x => snd x =? b) (q_outstanding s) = true).
      { apply existsb_exists. exists y. split; auto. now apply Nat.eqb_eq. } congruence. }
    destruct (request_ok P src T D s i b I Hb) as (I1 & PO & _).
    destruct (IH _ _ _ I1 H3 H) as (I2 & P2). split; [exact I2|]. rewrite <- P2, PO. cbn. apply Permutation_middle.
  - destruct (q_poll P src s cs) as [r|] eqn:Eq; [|discriminate]. inversion A; subst.
    destruct (poll_ok P L src D s cs r I H2 Eq) as (s1 & out & -> & I1 & _ & PO & _).
    destruct (qrun P src s1 es) as [[s2 outs2]|] eqn:Er; [|discriminate]. injection H as <- <-.
    destruct (IH _ _ _ I1 H3 Er) as (I2 & P2). split; [exact I2|]. rewrite map_app, <- app_assoc, <- P2, <- PO. cbn.
    rewrite !app_assoc. apply Permutation_app_tail. apply Permutation_app_comm.
Qed.

Lemma all_answers : forall es, answers (fun _ _ => True) es.
Proof. induction es as [|[i b|cs] es IH]; constructor; auto. induction cs; constructor; auto. Qed.

(** Whatever the store answers and in whatever order: after any history the
    requests made are exactly those answered plus those outstanding, each as often
    as it was made; the source reports being idle exactly when none is
    outstanding; it never asks the store twice for the same object at a time. *)
Theorem C47_answered_exactly_once : forall P src, lawful P -> source_typed src -> forall mem es s outs,
  qrun P src (q_new mem) es = Some (s, outs) ->
  Permutation (requests es) (map fst outs ++ q_outstanding s) /\
  (q_busy s = false <-> q_outstanding s = []) /\ NoDup (q_gets s).
Proof.
  intros P src L T mem es s outs H.
  destruct (qrun_inv P src (fun _ _ => True) L T es _ _ _ (qinv_new P src _ mem) (all_answers es) H) as [[I G] PO].
  cbn in PO. rewrite app_nil_r in PO. split; [exact PO|]. split; [|rewrite G; apply I].
  unfold q_busy, q_outstanding. pose proof (v_pending _ _ _ _ I) as V. split.
  - intros Hb. destruct (q_pending s); [|discriminate]. destruct (q_finished s); [reflexivity|discriminate].
  - intros Hn. apply app_eq_nil in Hn. destruct Hn as [Hp Hf]. apply map_eq_nil in Hf. rewrite Hf.
    destruct (q_pending s) as [|p l]; [reflexivity|]. inversion V as [|? ? (_ & _ & _ & Hne & _) _]; subst. cbn in Hp. apply app_eq_nil in Hp. tauto.
Qed.

(** Polling never panics, and once the store has answered everything it was
    asked, every outstanding request is answered. *)
Theorem C47_poll_progress : forall P src, lawful P -> source_typed src -> forall mem es s outs,
  qrun P src (q_new mem) es = Some (s, outs) ->
  forall cs r, q_poll P src s cs = Some r ->
  exists s1 out, r = Ok (s1, out) /\ (q_gets s1 = [] -> q_outstanding s1 = [] /\ Permutation (map fst out) (q_outstanding s)).
Proof.
  intros P src L T mem es s outs H cs r Hr.
  destruct (qrun_inv P src (fun _ _ => True) L T es _ _ _ (qinv_new P src _ mem) (all_answers es) H) as [I _].
  assert (A : Forall (fun c => (fun _ _ => True) (fst c) (snd c)) cs) by (clear; induction cs; constructor; auto).
  destruct (poll_ok P L src (fun _ _ => True) s cs r I A Hr) as (s1 & out & -> & [I1 G1] & F1 & PO & _).
  exists s1, out. split; [reflexivity|]. intros Hg. rewrite Hg in G1. symmetry in G1. apply map_eq_nil in G1.
  assert (Z : q_outstanding s1 = []) by (unfold q_outstanding; rewrite G1, F1; reflexivity).
  split; [exact Z|]. rewrite Z, app_nil_r in PO. exact PO.
Qed.

(** With a store whose objects do not change (its gets may fail), a stripe
    answered with success has exactly that stripe's contents in the buffer of its
    request, even when several stripes share an object; a stripe is answered with
    failure only if a get failed or the stored object does not decode. *)
Theorem C47_contents : forall P src, lawful P -> source_typed src -> forall st mem es s outs,
  answers (unchanging st) es -> qrun P src (q_new mem) es = Some (s, outs) ->
  forall cs s1 out, Forall (fun c => unchanging st (fst c) (snd c)) cs -> q_poll P src s cs = Some (Ok (s1, out)) ->
  forall i b ok, In (i, b, ok) out ->
    length (q_mem s1 b) = length (q_mem s b) /\
    if ok then fetch_stripe P st src i (length (q_mem s b)) = Ok (q_mem s1 b)
    else exists h, map_get (s_map src) i = Some (SDigest h) /\
      ((exists cs', In (object_key h, None) cs' /\ (cs' = cs \/ In (QPoll cs') es)) \/
       exists e, fetch_stripe P st src i (length (q_mem s b)) = Err e).
Proof.
  intros P src L T st mem es s outs A H cs s1 out Hc Hp i b ok Hin.
  set (D := fun n r => unchanging st n r /\ (r = None -> exists cs', In (n, None) cs' /\ (cs' = cs \/ In (QPoll cs') es))).
  assert (A' : answers D es).
  { unfold answers in *. rewrite Forall_forall in *. intros e He. specialize (A e He). destruct e as [|cs']; [exact I|].
    rewrite Forall_forall in *. intros [n r] Hn. split; [exact (A _ Hn)|]. cbn. intros ->. eauto. }
  assert (C' : Forall (fun c => D (fst c) (snd c)) cs).
  { rewrite Forall_forall in *. intros [n r] Hn. split; [exact (Hc _ Hn)|]. cbn. intros ->. eauto. }
  destruct (qrun_inv P src D L T es _ _ _ (qinv_new P src _ mem) A' H) as [I _].
  destruct (poll_ok P L src D s cs _ I C' Hp) as (s1' & out' & E & _ & _ & _ & Fo & LM & _). injection E as <- <-.
  rewrite Forall_forall in Fo. specialize (Fo _ Hin). cbn [fst snd] in Fo. split; [apply LM|]. rewrite <- LM.
  unfold outcome in Fo. destruct ok.
  - unfold fetch_stripe. destruct (map_get (s_map src) i) as [[|h]|].
    + destruct Fo as [_ Fo]. now rewrite <- Fo.
    + destruct Fo as (r & [[->|Hr] _] & Fo); [discriminate|]. subst r. destruct (st (object_key h)) as [data|]; [exact Fo|discriminate].
    + destruct Fo as [_ Fo]. now rewrite <- Fo.
  - unfold fetch_stripe. destruct (map_get (s_map src) i) as [[|h]|]; try (destruct Fo; discriminate).
    exists h. split; [reflexivity|]. destruct Fo as (r & [Hr Hn] & Fo). destruct r as [data|].
    + right. destruct Hr as [Hr|Hr]; [discriminate|]. rewrite <- Hr. exact Fo.
    + left. auto.
Qed.

(** ** C30: export *)

(** The store's answers during an export. *)
Definition x_answers (D : list byte -> option (list byte) -> Prop) (es : list xevent) : Prop :=
  Forall (fun e => match e with XIoError => True | XPass cs => Forall (fun c => D (fst c) (snd c)) cs end) es.

(** The image fits the 64-bit file offsets. *)
Definition exportable (src : source) : Prop := (source_sector_count src * 512 < 2 ^ 64)%N.

Lemma x_run_inv : forall P src st (D : list byte -> option (list byte) -> Prop), (forall n r, D n r -> unchanging st n r) -> lawful P -> source_typed src -> exportable src -> forall es r r',
  (match r with XMore x => xinv P src st D x /\ x_written x < x_count src
   | XDone f => length f = x_count src * x_size src /\ forall i, i < x_count src -> fetch_stripe P st src i (x_size src) = Ok (block (x_size src) f i)
   | XFailed => True | XPanicked => False end) ->
  x_answers D es -> x_run P src r es = Some r' ->
  match r' with XMore x => xinv P src st D x /\ x_written x < x_count src
  | XDone f => length f = x_count src * x_size src /\ forall i, i < x_count src -> fetch_stripe P st src i (x_size src) = Ok (block (x_size src) f i)
  | XFailed => True | XPanicked => False end.
Proof.
  intros P src st D DU L T X. induction es as [|e es IH]; intros r r' I A H; cbn [x_run] in H; [injection H as <-; exact I|].
  destruct r as [x|f| |]; try discriminate. inversion A as [|? ? Ae A']; subst.
  destruct (x_pass P src x e) as [r1|] eqn:Ep; [|discriminate]. apply (IH r1 r'); auto. clear IH H r'.
  destruct e as [cs|]; [|injection Ep as <-; exact Logic.I].
  destruct (pass_ok P L src T st D DU x cs r1 (proj1 I) Ae Ep) as [[-> _]|(x2 & q & out & _ & I2 & _ & _ & ->)]; [exact Logic.I|].
  destruct (x_written x2 <? x_count src) eqn:E.
  - apply Nat.ltb_lt in E. split; auto.
  - apply Nat.ltb_ge in E. pose proof (e_written _ _ _ _ _ I2). pose proof (e_next _ _ _ _ _ I2).
    assert (N0 : x_inflight x2 = []) by (destruct (x_inflight x2); [reflexivity|cbn in *; lia]).
    split; [apply (e_len _ _ _ _ _ I2)|]. intros i Hi. apply (e_done _ _ _ _ _ I2); [rewrite N0 in *; cbn in *; lia|]. rewrite N0. auto.
Qed.

Lemma x_start_inv : forall P src st D, exportable src ->
  match x_start src with XMore x => xinv P src st D x /\ x_written x < x_count src
  | XDone f => length f = x_count src * x_size src /\ forall i, i < x_count src -> fetch_stripe P st src i (x_size src) = Ok (block (x_size src) f i)
  | XFailed => True | XPanicked => False end.
Proof.
  intros P src st D X. destruct (x_start src) as [x|f| |] eqn:E; auto.
  - destruct (inv_start P src st D x E X) as (I & W & C & _). split; auto. lia.
  - unfold x_start in E. destruct (x_sectors src =? 0)%N eqn:E0; [|discriminate]. injection E as <-.
    assert (C : x_count src = 0).
    { unfold x_count. apply N.eqb_eq in E0. rewrite E0. destruct (N.eq_dec (s_ssc src) 0) as [->|H]; [reflexivity|].
      rewrite N.div_small by lia. reflexivity. }
    rewrite C. split; [reflexivity|]. intros i Hi. lia.
  - unfold x_start in E. destruct (_ =? _)%N; discriminate.
Qed.

(** If an export succeeds, whatever the order in which the store answered, the
    image consists of the contents of every stripe at its offset (fetch_stripe
    gives zeros for stripes without an entry). *)
Theorem C30_export_is_the_archive : forall P src st, lawful P -> source_typed src -> exportable src ->
  forall es file, x_answers (unchanging st) es -> x_run P src (x_start src) es = Some (XDone file) ->
  length file = x_count src * x_size src /\
  forall i, i < x_count src -> fetch_stripe P st src i (x_size src) = Ok (block (x_size src) file i).
Proof.
  intros P src st L T X es file A H.
  exact (x_run_inv P src st _ (fun n r H => H) L T X es _ _ (x_start_inv P src st _ X) A H).
Qed.

Lemma blocks_ext : forall n f g k, length f = k * n -> length g = k * n ->
  (forall i, i < k -> block n f i = block n g i) -> f = g.
Proof.
  intros n f g k. revert f g. induction k as [|k IH]; intros f g Hf Hg H.
  - apply length_zero_iff_nil in Hf, Hg. congruence.
  - rewrite <- (firstn_skipn n f), <- (firstn_skipn n g). f_equal; [exact (H 0 (Nat.lt_0_succ k))|].
    apply IH; try (rewrite skipn_length; lia). intros i Hi. specialize (H (S i) ltac:(lia)). unfold block in *.
    rewrite !ListFacts.skipn_skipn. replace (i * n + n) with (S i * n) by lia. replace (n + i * n) with (S i * n) by lia. exact H.
Qed.

(** The image does not depend on the completion order. *)
Theorem C30_order_independent : forall P src st, lawful P -> source_typed src -> exportable src ->
  forall es es' file file', x_answers (unchanging st) es -> x_answers (unchanging st) es' ->
  x_run P src (x_start src) es = Some (XDone file) -> x_run P src (x_start src) es' = Some (XDone file') -> file = file'.
Proof.
  intros P src st L T X es es' file file' A A' H H'.
  destruct (C30_export_is_the_archive P src st L T X es file A H) as [L1 B1].
  destruct (C30_export_is_the_archive P src st L T X es' file' A' H') as [L2 B2].
  apply (blocks_ext (x_size src) _ _ (x_count src)); auto. intros i Hi. apply Ok_inj. rewrite <- B1, <- B2; auto.
Qed.

Lemma answer_gets_in : forall cs l l' n r, answer_gets l cs = Some l' -> In (n, r) cs -> In n l.
Proof.
  induction cs as [|c cs IH]; intros l l' n r H Hin; [destruct Hin|]. cbn in H.
  destruct (remove_name l (fst c)) as [l1|] eqn:E; [|discriminate].
  assert (R : forall l x l1, remove_name l x = Some l1 -> In x l /\ forall y, In y l1 -> In y l).
  { clear. induction l as [|z l IH]; intros x l1 H; [discriminate|]. cbn in H. destruct (bytes_eqb z x) eqn:E.
    - injection H as <-. apply bytes_eqb_spec in E. subst. split; [now left|]. intros y Hy. now right.
    - destruct (remove_name l x) as [r|] eqn:Er; [|discriminate]. injection H as <-. destruct (IH _ _ Er) as [A B].
      split; [now right|]. intros y [->|Hy]; [now left|right; auto]. }
  destruct (R _ _ _ E) as [Ra Rb]. destruct Hin as [->|Hin]; [exact Ra|]. apply Rb. eapply IH; eauto.
Qed.

Lemma completes_bad : forall P src D, lawful P -> forall cs s names, sinv P src D s ->
  answer_gets (map pr_name (q_pending s)) cs = Some names -> Forall (fun c => D (fst c) (snd c)) cs ->
  (existsb (fun y => negb (snd y)) (q_finished s) = true \/ exists n, In (n, None) cs) ->
  forall s1, q_completes P src s cs = Ok s1 -> existsb (fun y => negb (snd y)) (q_finished s1) = true.
Proof.
  intros P src D L. induction cs as [|c cs IH]; intros s names I H A Hb s1 H1; cbn [q_completes answer_gets] in *.
  - injection H1 as <-. destruct Hb as [Hb|[n []]]; exact Hb.
  - inversion A as [|? ? Ac A']; subst. destruct (remove_name (map pr_name (q_pending s)) (fst c)) as [l|] eqn:Er; [|discriminate].
    destruct (complete_ok P L src D s c l I Er Ac) as (s2 & E & I2 & N2 & _).
    rewrite E in H1. cbn [bindr] in H1. rewrite <- N2 in H. apply (IH s2 names I2 H A'); [|exact H1].
    assert (Mono : forall xs t data h t', finish_pending_request P src t xs data h = Ok t' ->
        existsb (fun y => negb (snd y)) (q_finished t) = true -> existsb (fun y => negb (snd y)) (q_finished t') = true).
    { clear. induction xs as [|[i b] xs IH]; intros t data h t' H Hb; cbn in H; [congruence|].
      destruct (finish_stripe_fetch _ _ _ _ _ _ _ _); try discriminate; apply IH in H; auto; cbn; rewrite existsb_app, Hb; reflexivity. }
    unfold q_complete in E. destruct (take_pending_names _ _ _ Er) as (p & rest & Et & En & _ & Pm). rewrite Et in E.
    destruct Hb as [Hb|[n [Hn|Hn]]].
    + left. destruct (snd c) as [data|]; [eapply Mono; [exact E|exact Hb]|]. injection E as <-. cbn. rewrite existsb_app, Hb. reflexivity.
    + left. subst c. cbn [fst snd] in *. injection E as <-. cbn. rewrite existsb_app.
      pose proof (v_pending _ _ _ _ I) as V. rewrite Pm in V. inversion V as [|? ? (_ & _ & _ & Hne & _) _]; subst.
      destruct (pr_stripes p) as [|y ys]; [contradiction|]. cbn. apply orb_true_r.
    + right. eauto.
Qed.

(** A failed get, or a failed file operation, aborts the export. *)
Theorem C30_failure_aborts : forall P src st, lawful P -> source_typed src -> exportable src ->
  forall es x, x_answers (unchanging st) es -> x_run P src (x_start src) es = Some (XMore x) ->
  x_pass P src x XIoError = Some XFailed /\
  forall cs r, Forall (fun c => unchanging st (fst c) (snd c)) cs -> x_pass P src x (XPass cs) = Some r ->
    (exists n, In (n, None) cs) -> r = XFailed.
Proof.
  intros P src st L T X es x A H. split; [reflexivity|]. intros cs r Hc Hp Hn.
  pose proof (x_run_inv P src st _ (fun n r H => H) L T X es _ _ (x_start_inv P src st _ X) A H) as [I _].
  destruct (pass_ok P L src T st _ (fun n r H => H) x cs r I Hc Hp) as [[-> _]|(x2 & q & out & Eq & _)]; [reflexivity|].
  destruct (fill_ok P src T st _ (x_count src) x I) as (I1 & _ & _). pose proof (e_q _ _ _ _ _ I1) as [Qs Qg].
  unfold x_pass in Hp. rewrite Eq in Hp. unfold q_poll in Eq.
  destruct (answer_gets (q_gets (x_src (x_fill src (x_count src) x))) cs) as [gets|] eqn:Eg; [|discriminate].
  rewrite Qg in Eg. injection Eq as Eq.
  set (s0 := mk_asource (q_pending (x_src (x_fill src (x_count src) x))) (q_finished (x_src (x_fill src (x_count src) x)))
     (q_mem (x_src (x_fill src (x_count src) x))) gets) in *.
  assert (S0 : sinv P src (unchanging st) s0) by (destruct Qs; constructor; auto).
  destruct (q_completes P src s0 cs) as [s1| |] eqn:Ec; try discriminate. cbn [bindr] in Eq.
  assert (B : existsb (fun y => negb (snd y)) (q_finished s1) = true).
  { eapply (completes_bad P src (unchanging st) L cs s0 gets); eauto. }
  apply Ok_inj in Eq. injection Eq as <- <-.
  assert (Dn : forall o y, existsb (fun y => negb (snd y)) o = true -> x_drain src y o = None).
  { clear. induction o as [|[[i b] ok] o IH]; intros y H; [discriminate|]. cbn in *. destruct ok; [|reflexivity]. cbn in *.
    destruct (existsb (Nat.eqb i) (x_inflight y)); auto. }
  rewrite Dn in Hp by exact B. now injection Hp.
Qed.

(** An export is never stuck: in every pass either the store is being waited for
    or something was written; when the store answers everything it was asked and
    the objects decode, each pass writes at least one more stripe, so an export
    needs at most one such pass per stripe. *)
Theorem C30_export_progress : forall P src st, lawful P -> source_typed src -> exportable src ->
  (forall i h, map_get (s_map src) i = Some (SDigest h) -> exists d, fetch_stripe P st src i (x_size src) = Ok d) ->
  forall es x, x_answers (fun n r => r = st n) es -> x_run P src (x_start src) es = Some (XMore x) ->
  x_written x < x_count src /\
  let gets := q_gets (x_src (x_fill src (x_count src) x)) in
  exists r, x_pass P src x (XPass (map (fun n => (n, st n)) gets)) = Some r /\
    match r with
    | XDone _ => True
    | XMore x2 => x_written x < x_written x2
    | _ => False
    end.
Proof.
  intros P src st L T X Dec es x A H.
  assert (DU : forall n r, r = st n -> unchanging st n r) by (intros n r ->; now right).
  pose proof (x_run_inv P src st _ DU L T X es _ _ (x_start_inv P src st _ X) A H) as [I W].
  split; [exact W|]. intros gets.
  destruct (fill_ok P src T st _ (x_count src) x I) as (I1 & W1 & F1). specialize (F1 ltac:(lia)).
  set (x1 := x_fill src (x_count src) x) in *.
  set (cs := map (fun n => (n, st n)) gets).
  assert (Hc : Forall (fun c => snd c = st (fst c)) cs).
  { unfold cs. rewrite Forall_forall. intros c Hc. apply in_map_iff in Hc. destruct Hc as (n & <- & _). reflexivity. }
  assert (Ag : answer_gets (q_gets (x_src x1)) cs = Some []).
  { unfold cs, gets. clear. induction (q_gets (x_src x1)) as [|n l IH]; [reflexivity|]. cbn. rewrite bytes_eqb_refl. exact IH. }
  destruct (q_poll P src (x_src x1) cs) as [rq|] eqn:Eq.
  2:{ unfold q_poll in Eq. rewrite Ag in Eq. discriminate. }
  destruct (x_pass P src x (XPass cs)) as [r|] eqn:Ep.
  2:{ unfold x_pass in Ep. fold x1 in Ep. rewrite Eq in Ep. destruct rq as [[q out]| |]; [|discriminate|discriminate].
      destruct (x_drain _ _ _); discriminate. }
  exists r. split; [reflexivity|].
  destruct (poll_ok P L src (fun n r => r = st n) (x_src x1) cs rq (e_q _ _ _ _ _ I1) Hc Eq) as (q & out & -> & [Q Gq] & Fq & PO & Fo & LM & _ & Gg).
  rewrite Ag in Gg. injection Gg as Gg. rewrite <- Gg in Gq. symmetry in Gq. apply map_eq_nil in Gq.
  assert (Z : q_outstanding q = []) by (unfold q_outstanding; rewrite Gq, Fq; reflexivity).
  rewrite Z, app_nil_r in PO.
  destruct (pass_ok P L src T st _ DU x cs r I Hc Ep) as [[-> (q' & out' & Eq' & Hbad)]|(x2 & q' & out' & Eq' & I2 & _ & W2 & ->)];
    fold x1 in Eq'; rewrite Eq in Eq'; injection Eq' as <- <-.
  - (* every outstanding object decodes *)
    apply existsb_exists in Hbad. destruct Hbad as ([[i b] ok] & Hin & Hok). cbn in Hok. destruct ok; [discriminate|].
    rewrite Forall_forall in Fo. pose proof (Fo _ Hin) as Fi. cbn [fst snd] in Fi. unfold outcome in Fi.
    destruct (map_get (s_map src) i) as [[|h]|] eqn:Em; try (destruct Fi; discriminate).
    assert (Lb : length (q_mem q b) = x_size src).
    { rewrite LM. assert (Hb : In (i, b) (q_outstanding (x_src x1))).
      { apply (Permutation_in _ PO). change (i, b) with (fst (i, b, false)). now apply in_map. }
      apply (Permutation_in _ (e_out _ _ _ _ _ I1)) in Hb. apply in_map_iff in Hb. destruct Hb as (j & E & Hj). injection E as E1 E2. subst j b.
      apply (e_in _ _ _ _ _ I1). exact Hj. }
    destruct (Dec i h Em) as [d Hd]. unfold fetch_stripe in Hd. rewrite Em in Hd.
    destruct (st (object_key h)) as [data|] eqn:Es; [|discriminate].
    destruct Fi as (r & Hr & Fi).
    cbn beta in Hr. try rewrite Es in Hr. subst r. destruct Fi as [e Fi]. rewrite Lb in Fi. congruence.
  - destruct (x_written x2 <? x_count src); [|exact Logic.I]. fold x1 in W2. rewrite W2.
    assert (Lo : length out = length (x_inflight x1)).
    { rewrite <- (map_length fst out), (Permutation_length PO), (Permutation_length (e_out _ _ _ _ _ I1)). apply map_length. }
    pose proof (e_written _ _ _ _ _ I1). unfold MAX_FETCHES in F1. lia.
Qed.

(** Exporting what the archiver stored for a disk gives the disk: up to and
    including its last stripe with data, every stripe with data has its contents
    at its offset, and the others are zeros. *)
Theorem C30_export_of_archived_disk : forall P c, lawful P -> aconf_ok c -> no_collision P c ->
  (N.of_nat (ac_count c) * ac_ssc c * 512 < 2 ^ 64)%N ->
  forall s, archiving P c s -> a_phase s = PDone ->
  exists src, open_archive P (a_store s) (ac_kek c) = Ok src /\
  forall es file, x_answers (unchanging (a_store s)) es -> x_run P src (x_start src) es = Some (XDone file) ->
  exists n, length file = n * stripe_size c /\
    (forall i, has_data c i -> i < n) /\ (n = 0 \/ has_data c (n - 1)) /\
    forall i, i < n ->
      (has_data c i -> block (stripe_size c) file i = contents c i) /\
      (~ has_data c i -> block (stripe_size c) file i = repeat 0%N (stripe_size c)).
Proof.
  intros P c L K NC B s A Hp. destruct (archiving_inv P c s A) as [I _].
  destruct (C23_archive_roundtrip P c L K NC s A Hp) as (src & Eo & F). exists src. split; [exact Eo|].
  intros es file Ax Hx. destruct F as [Fs F].
  destruct (i_tail _ _ _ I) as [t [_ Tt]]. rewrite Hp in Tt. destruct Tt as (_ & _ & _ & M).
  pose proof (open_complete P c L K s I M) as Eo'. rewrite Eo' in Eo. apply Ok_inj in Eo. subst src.
  set (src := mk_source (ac_cipher c) (a_map s) (ac_ssc c) (ac_comp c)) in *.
  assert (HS : forall i, has_stripe src i = true <-> In i (map fst (a_map s))).
  { intros i. unfold has_stripe, src. cbn [s_map]. split.
    - destruct (map_get (a_map s) i) eqn:E; [|discriminate]. intros _. apply map_get_In in E. change i with (fst (i, s0)). now apply in_map.
    - intros H. destruct (map_get (a_map s) i) eqn:E; [reflexivity|]. exfalso. clear - E H. induction (a_map s) as [|[k v] m IH]; [destruct H|].
      cbn in *. destruct (k =? i) eqn:Ek; [discriminate|]. destruct H as [->|H]; [rewrite Nat.eqb_refl in Ek; discriminate|auto]. }
  assert (HD : forall i, In i (map fst (a_map s)) <-> has_data c i).
  { intros i. rewrite <- HS. apply F. }
  assert (MX : forall m : content_map, (forall i, In i (map fst m) -> i <= max_stripe_id m) /\ (m <> [] -> In (max_stripe_id m) (map fst m))).
  { clear. induction m as [|e m [IH1 IH2]]; [split; [intros i []|congruence]|]. cbn [max_stripe_id fold_right map]. fold (max_stripe_id m). split.
    - intros i [<-|Hi]; [lia|]. apply IH1 in Hi. lia.
    - intros _. destruct m as [|e' m']; [left; cbn; lia|]. specialize (IH2 ltac:(discriminate)).
      destruct (Nat.max_dec (fst e) (max_stripe_id (e' :: m'))) as [->| ->]; [now left|now right]. }
  destruct (MX (a_map s)) as [MX1 MX2].
  assert (Hcap : a_map s <> [] -> max_stripe_id (a_map s) < ac_count c).
  { intros Hne. apply MX2, HD in Hne. apply Hne. }
  assert (Xp : exportable src).
  { unfold exportable, source_sector_count, src. cbn [s_map s_ssc]. destruct (a_map s) as [|e m] eqn:Em; [lia|].
    specialize (Hcap ltac:(discriminate)). nia. }
  assert (Ty : source_typed src).
  { intros i h Hm. unfold src in Hm. cbn [s_map] in Hm. apply map_get_In in Hm. pose proof (i_map _ _ _ I) as FM.
    rewrite Forall_forall in FM. apply FM in Hm. destruct Hm as [_ Hm]. cbn [fst snd] in Hm.
    destruct Hm as [_ (o & _ & -> & _)]. apply (l_sha P L). }
  destruct (C30_export_is_the_archive P src (a_store s) L Ty Xp es file Ax Hx) as [Lf Bf].
  assert (Hsz : x_size src = stripe_size c) by reflexivity.
  assert (Hct : x_count src = match a_map s with [] => 0 | _ => max_stripe_id (a_map s) + 1 end).
  { pose proof (k_ssc _ K). unfold exportable in Xp. unfold x_count, x_sectors, wrap64. rewrite N.mod_small by lia.
    unfold source_sector_count, src. cbn [s_map s_ssc]. destruct (a_map s) as [|e m]; [rewrite N.div_small by lia; reflexivity|].
    rewrite N.add_comm, N.div_add by lia. rewrite N.div_small by lia. lia. }
  exists (x_count src). rewrite <- Hsz. split; [exact Lf|]. split; [|split].
  - intros i Hi. apply HD in Hi. pose proof (MX1 i Hi). rewrite Hct. destruct (a_map s); [destruct Hi|lia].
  - rewrite Hct. destruct (a_map s) as [|e m] eqn:Em; [now left|]. right. rewrite Nat.add_sub. apply HD. apply MX2. discriminate.
  - intros i Hi. specialize (Bf i Hi). rewrite Hsz in *. destruct (F i) as (_ & F1 & F2). split; intros Hd.
    + rewrite F1 in Bf by auto. apply Ok_inj in Bf. congruence.
    + rewrite F2 in Bf by auto. apply Ok_inj in Bf. congruence.
Qed.

(** ** Non-vacuity *)
(** The encrypted, compressed demo archive: stripes 0 (and others) are fetched out
    of order and the export completes; a failing get aborts it. *)
Definition demo_st (c : aconf) (es : list aevent) : store :=
  match arun toy_prims c (anew c) es with Some s => a_store s | None => empty_store end.
Definition demo_src (c : aconf) (es : list aevent) : source :=
  match open_archive toy_prims (demo_st c es) (ac_kek c) with Ok s => s | _ => mk_source None [] 0 CompNone end.

Definition first_gets (c : aconf) (es : list aevent) : list (list byte) :=
  match x_start (demo_src c es) with
  | XMore x => q_gets (x_src (x_fill (demo_src c es) (x_count (demo_src c es)) x))
  | _ => []
  end.
(** The store answers the last get first, then the others. *)
Definition demo_export (c : aconf) (es : list aevent) : list xevent :=
  let g := rev (first_gets c es) in
  [XPass (map (fun n => (n, demo_st c es n)) (firstn 1 g)); XPass []; XPass (map (fun n => (n, demo_st c es n)) (skipn 1 g))].

Definition export_ends (c : aconf) (es : list aevent) : bool :=
  match x_run toy_prims (demo_src c es) (x_start (demo_src c es)) (demo_export c es) with
  | Some (XDone f) => bytes_eqb f (flat_map (fun i => if existsb (Nat.eqb i) [0; 2; 3; 4] then contents c i else repeat 0%N 512) (seq 0 5))
  | _ => false
  end.

Example C30_nonvacuous :
  (length (first_gets demo_enc finish_enc) = 3 /\ export_ends demo_enc finish_enc = true) /\
  (length (first_gets demo_plain finish_plain) = 2 /\ export_ends demo_plain finish_plain = true).
Proof. vm_compute. repeat split. Qed.

(** In the plain archive stripes 0 and 4 share an object; both are answered, with
    one get. *)
Definition demo_q : list qevent :=
  [QRequest 0 10; QRequest 1 11; QRequest 4 14;
   QPoll (map (fun n => (n, demo_st demo_plain finish_plain n)) (firstn 1 (first_gets demo_plain finish_plain)))].
Example C47_nonvacuous :
  match qrun toy_prims (demo_src demo_plain finish_plain) (q_new (fun _ => repeat 5%N 512)) demo_q with
  | Some (s, outs) => outs = [(1, 11, true); (0, 10, true); (4, 14, true)] /\ q_busy s = false /\
      bytes_eqb (q_mem s 14) (contents demo_plain 4) = true
  | None => False
  end.
Proof. vm_compute. repeat split. Qed.

Print Assumptions C47_answered_exactly_once.
Print Assumptions C47_poll_progress.
Print Assumptions C47_contents.
Print Assumptions C30_export_is_the_archive.
Print Assumptions C30_order_independent.
Print Assumptions C30_failure_aborts.
Print Assumptions C30_export_progress.
Print Assumptions C30_export_of_archived_disk.
