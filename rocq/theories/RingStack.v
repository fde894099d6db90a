(** Proofs for C83: how many requests the backends have under way on a channel. *)
From Coq Require Import List Arith NArith ZArith Bool Lia ZifyBool ZifyNat ZifyN.
Import ListNotations.
From Verif Require Import Base BaseFacts DiskSpec TraceSpec TraceFacts RingSpec RingProofs.
From Verif Require VhostModel VhostSpec VhostProofs GuestModel GuestSpec GuestProofs.
From Verif Require MetadataModel LazyState LazyModel LazyInv LazySim LazyRun LazySpec LazyProofs LayerSpec LayerModel LayerIds LayerProofs CryptModel CryptOpenModel.
From Verif Require UblkModel UblkSpec UblkProofs UblkDiskModel UblkDiskSpec UblkDiskProofs.

Lemma pigeon : forall (R : nat -> nat -> Prop) k l, NoDup l -> (forall n, In n l -> exists x, x < k /\ R n x) ->
  (forall n m x, In n l -> In m l -> R n x -> R m x -> n = m) -> length l <= k.
Proof.
  intros R k l N F I.
  assert (H : exists xs, length xs = length l /\ NoDup xs /\ forall x, In x xs -> x < k /\ exists n, In n l /\ R n x).
  { induction l as [|n l IH]; [exists []; repeat split; [constructor|destruct H|destruct H]|].
    inversion N as [|? ? Hn N']; subst. destruct IH as (xs & L & Nx & Hx); auto.
    { intros m Hm. apply F. now right. }
    { intros a b x Ha Hb. apply I; now right. }
    destruct (F n (or_introl eq_refl)) as (x & Hk & Hr). exists (x :: xs). cbn [length]. rewrite L. repeat split.
    - constructor; auto. intros X. destruct (Hx _ X) as (_ & m & Hm & Hr'). apply Hn. rewrite (I n m x); auto; [now left|now right].
    - destruct H as [<-|H]; [auto|apply Hx; auto].
    - destruct H as [<-|H]; [exists n; split; auto; now left|]. destruct (Hx _ H) as (_ & m & Hm & Hr'). exists m. split; auto. now right. }
  destruct H as (xs & <- & Nx & Hx). rewrite <- (seq_length k 0). apply NoDup_incl_length; auto.
  intros x X. apply in_seq. destruct (Hx _ X). lia.
Qed.

Lemma filter_len : forall A (f : A -> bool) l, length (filter f l) <= length l.
Proof. intros A f l. induction l as [|a l IH]; cbn; auto. destruct (f a); cbn; lia. Qed.

Section Under.
Context {V : Type}.
Variable size : nat.

(** The requests under way are those the disk works on. *)
Lemma run_under_way : forall (contents : nat -> V) es d tr, drun size (new_disk contents) es = Some (d, tr) ->
  forall q, NoDup (under_way q tr) /\
    forall n, In n (under_way q tr) -> d_used d n = true /\ exists id k, d_ops d n = Some (mk_dop q id k).
Proof.
  intros contents es d tr R. revert es d tr R. apply (run_ind size (fun d tr => forall q, NoDup (under_way q tr) /\
    forall n, In n (under_way q tr) -> d_used d n = true /\ exists id k, d_ops d n = Some (mk_dop q id k))).
  - intros q. split; [constructor|intros n []].
  - intros d t e d' t' IH H q. destruct (IH q) as [N1 F1].
    destruct (dstep_cases _ _ _ _ _ H) as [->|(i & ->)].
    + rewrite app_nil_r. split; auto. intros n Hn. destruct (F1 n Hn) as (U & id & k & O).
      revert H. unfold dstep. destruct e as [m q' id' r|m i|m i|m ok|p].
      * destruct (d_used d m); discriminate.
      * destruct (d_ops d m) as [[q1 id1 [| |]]|] eqn:E; try discriminate. destruct (nth_error _ _); [|discriminate].
        destruct (_ && _); [|discriminate]. intros X. injection X as <-. cbn [set_kind d_used d_ops]. split; auto. unfold upd.
        destruct (Nat.eqb_spec n m) as [->|]; [|eauto]. rewrite E in O. injection O as <- <- <-. eauto.
      * destruct (d_ops d m) as [[q1 id1 [| |]]|] eqn:E; try discriminate.
        destruct (_ && _); [|discriminate]. intros X. injection X as <-. cbn [set_kind d_used d_ops]. split; auto. unfold upd.
        destruct (Nat.eqb_spec n m) as [->|]; [|eauto]. rewrite E in O. injection O as <- <- <-. eauto.
      * destruct (d_ops d m) as [[q1 id1 k1]|]; [|discriminate]. destruct ok; [|discriminate].
        destruct k1; repeat match goal with |- (if ?b then _ else _) = _ -> _ => destruct b; [|discriminate]
          | |- match ?b with Some _ => _ | None => _ end = _ -> _ => destruct b; [|discriminate] end; discriminate.
      * discriminate.
    + rewrite under_way_app. cbn [fold_left]. destruct i as [n q' id r|n q' id ok data|]; cbn [note].
      * apply item_issue in H as [U ->]. destruct (Nat.eqb_spec q' q) as [->|Hq].
        -- split; [constructor; auto; intros X; destruct (F1 _ X); congruence|].
           intros m [<-|Hm]; cbn [dissue d_used d_ops]; rewrite ?upd_eq; [eauto|].
           destruct (F1 m Hm) as (Um & O). assert (m <> n) by congruence. rewrite !upd_neq by auto. auto.
        -- split; auto. intros m Hm. cbn [dissue d_used d_ops]. destruct (F1 m Hm) as (Um & O). assert (m <> n) by congruence. rewrite !upd_neq by auto. auto.
      * apply item_done in H as (k & O & H).
        assert (X : d_used d' = d_used d /\ d_ops d' = upd (d_ops d) n None).
        { unfold dstep in H. rewrite O in H. destruct ok.
          - destruct k; repeat match goal with H : (if ?b then _ else _) = _ |- _ => destruct b; [|discriminate H] end; injection H as <- _; auto.
          - injection H as <- _; auto. }
        destruct X as [X1 X2]. rewrite X1, X2. destruct (Nat.eqb_spec q' q) as [->|Hq].
        -- split; [now apply NoDup_filter|]. intros m Hm. apply filter_In in Hm as [Hm Hne].
           assert (m <> n) by (intros ->; rewrite Nat.eqb_refl in Hne; discriminate Hne). rewrite upd_neq by auto. auto.
        -- split; auto. intros m Hm. destruct (F1 m Hm) as (Um & id' & k' & O'). rewrite upd_neq; eauto. intros ->. congruence.
      * split; [constructor|intros n []].
Qed.

(** And the other way round. *)
Lemma worked_on : forall (contents : nat -> V) es d tr, drun size (new_disk contents) es = Some (d, tr) ->
  forall n q id k, d_ops d n = Some (mk_dop q id k) -> In n (under_way q tr).
Proof.
  intros contents es d tr R. revert es d tr R. apply (run_ind size (fun d tr => forall n q id k, d_ops d n = Some (mk_dop q id k) -> In n (under_way q tr))).
  - discriminate.
  - intros d t e d' t' IH H n q id k O. destruct (dstep_cases _ _ _ _ _ H) as [->|(i & ->)].
    + rewrite app_nil_r. revert H. unfold dstep. destruct e as [m q' id' r|m i|m i|m ok|p].
      * destruct (d_used d m); discriminate.
      * destruct (d_ops d m) as [[q1 id1 [| |]]|] eqn:E; try discriminate. destruct (nth_error _ _); [|discriminate].
        destruct (_ && _); [|discriminate]. intros X. injection X as <-. cbn [set_kind d_ops] in O. unfold upd in O.
        destruct (Nat.eqb_spec n m) as [->|]; [|eauto]. injection O as <- <- <-. eauto.
      * destruct (d_ops d m) as [[q1 id1 [| |]]|] eqn:E; try discriminate.
        destruct (_ && _); [|discriminate]. intros X. injection X as <-. cbn [set_kind d_ops] in O. unfold upd in O.
        destruct (Nat.eqb_spec n m) as [->|]; [|eauto]. injection O as <- <- <-. eauto.
      * destruct (d_ops d m) as [[q1 id1 k1]|]; [|discriminate]. destruct ok; [|discriminate].
        destruct k1; repeat match goal with |- (if ?b then _ else _) = _ -> _ => destruct b; [|discriminate]
          | |- match ?b with Some _ => _ | None => _ end = _ -> _ => destruct b; [|discriminate] end; discriminate.
      * discriminate.
    + rewrite under_way_app. cbn [fold_left]. destruct i as [m q' id' r|m q' id' ok data|]; cbn [note].
      * apply item_issue in H as [U ->]. cbn [dissue d_ops] in O. unfold upd in O. destruct (Nat.eqb_spec n m) as [->|].
        -- injection O as -> _ _. rewrite Nat.eqb_refl. now left.
        -- destruct (q' =? q); [right|]; eauto.
      * apply item_done in H as (k0 & O0 & H).
        assert (X : d_ops d' = upd (d_ops d) m None).
        { unfold dstep in H. rewrite O0 in H. destruct ok.
          - destruct k0; repeat match goal with H : (if ?b then _ else _) = _ |- _ => destruct b; [|discriminate H] end; injection H as <- _; auto.
          - injection H as <- _; auto. }
        rewrite X in O. unfold upd in O. destruct (Nat.eqb_spec n m) as [->|Hm]; [discriminate O|].
        destruct (q' =? q); eauto. apply filter_In. split; eauto. destruct (Nat.eqb_spec n m); auto.
      * apply item_crash in H as (p & ->). discriminate O.
Qed.

Lemma note_less : forall q (t : list (titem V)) l, (forall n q' id r, ~ In (TIssue n q' id r) t) -> length (fold_left (note q) t l) <= length l.
Proof.
  intros q t. induction t as [|i t IH]; intros l H; cbn [fold_left]; auto.
  etransitivity; [apply IH; intros n q' id r X; eapply H; right; eauto|].
  destruct i as [m q' id r|m q' id ok data|]; cbn [note]; [exfalso; eapply H; now left| |cbn; lia].
  destruct (q' =? q); auto. apply filter_len.
Qed.

Lemma at_most_quiet : forall k q (tr t : list (titem V)), at_most k q tr -> (forall n q' id r, ~ In (TIssue n q' id r) t) -> at_most k q (tr ++ t).
Proof.
  intros k q tr t M H t1 t2 E. apply app_eq_app in E as (l & [[E1 E2]|[E1 E2]]).
  - apply (M t1 l). exact E1.
  - subst t1. rewrite under_way_app. etransitivity; [|apply (M tr []); now rewrite app_nil_r].
    apply note_less. intros n q' id r X. apply (H n q' id r). rewrite E2. apply in_or_app. auto.
Qed.

Lemma at_most_snoc : forall k q (tr t : list (titem V)), at_most k q tr -> t = [] \/ (exists i, t = [i]) ->
  length (under_way q (tr ++ t)) <= k -> at_most k q (tr ++ t).
Proof.
  intros k q tr t M [->|(i & ->)] L t1 t2 E; [apply (M t1 t2); now rewrite app_nil_r in E|].
  destruct t2 as [|j t2 _] using rev_ind.
  - rewrite app_nil_r in E. subst t1. exact L.
  - rewrite app_assoc in E. apply app_inj_tail in E as [-> _]. apply (M t1 t2). reflexivity.
Qed.
End Under.

(** ** The vhost-user backend *)
Section Vhost.
Import VhostModel GuestModel GuestSpec GuestProofs.
Variable valid : N -> bool.
Variable qsize : N.
Variable did : list byte.
Variable nslots : nat.
Variable bufsize : N.
Variable size : nat.
Variable m0 : gmem.

Lemma vhost_bound : forall (contents : nat -> sector) g P tr gtr, session valid qsize did nslots bufsize size m0 g P tr gtr ->
  (forall x, x < size -> N.of_nat (length (contents x)) = 512%N) ->
  forall d : disk sector, disk_behaviour size contents tr d ->
  forall q, at_most (N.to_nat qsize) q tr.
Proof.
  intros contents g P tr gtr S Hc. induction S as [|g P tr gtr e g' t P' w S IH D G W]; intros d (es & R) q.
  - intros t1 t2 E. destruct t1; [cbn; lia|discriminate E].
  - pose proof R as R0. destruct (drun_cut _ _ _ _ _ _ R) as (e1 & e2 & dm & R1 & R2).
    apply at_most_snoc; [eapply IH; eexists; exact R1| |].
    + destruct (sim_session valid qsize did nslots bufsize size m0 contents g P tr gtr Hc S e1 dm R1) as (es' & d' & _ & I).
      destruct W as [q0 c n rq head datas st r P E B Io A|q0 c n rq head datas st P E B Io|n q0 id okd datad h n' rq ok data P1 P2 E U F|
        q0 ei needs P E|a b P E|m P E]; subst e; cbn [gstep] in G.
      * destruct (process_chain valid qsize did c (at_queue g q0)) as [s'| |] eqn:Hp; cbn [bindr] in G; try discriminate.
        injection G as <- <-.
        destruct D as (Hq & Hnew & rq0 & head0 & datas0 & st0 & B0 & Hl & Hid & Hio & Hin).
        assert (rq0 = rq) as ->.
        { assert (E1 : parse valid (g_mem g) c = Ok rq) by (apply VhostProofs.parse_ok; eauto).
          assert (E2 : parse valid (g_mem g) c = Ok rq0) by (apply VhostProofs.parse_ok; eauto). congruence. }
        destruct (pop_io valid qsize did (at_queue g q0) c s' rq head datas st (i_vinv _ _ _ _ _ _ _ I q0) B Hl) as (o & Hh & As & T); auto.
        { intros X. destruct (Hio X) as (? & ? & _). auto. }
        rewrite (handed_one _ _ _ _ _ _ _ _ Hh). eauto.
      * destruct (process_chain valid qsize did c (at_queue g q0)) as [s'| |] eqn:Hp; cbn [bindr] in G; try discriminate.
        injection G as <- <-.
        destruct (not_io_at_once valid qsize did size _ _ _ _ q0 _ n _ _ _ _ _ I B Io Hp) as [Hh Hk]. auto.
      * destruct (complete_one _ _ _ _ _ _); cbn [bindr] in G; try discriminate. injection G as _ <-. eauto.
      * injection G as _ <-. auto.
      * injection G as _ <-. auto.
      * injection G as _ <-. eauto.
    + assert (S' : session valid qsize did nslots bufsize size m0 g' P' (tr ++ t) (gtr ++ w)) by (eapply s_event; eauto).
      destruct (sim_session valid qsize did nslots bufsize size m0 contents _ _ _ _ Hc S' es d R0) as (es' & d' & _ & I).
      destruct (run_under_way size contents es d _ R0 q) as [N F].
      apply (pigeon (fun n x => exists p, In p P' /\ p_serial p = n /\ p_queue p = q /\ N.to_nat (p_head p) = x)); auto.
      * intros n Hn. destruct (F n Hn) as (_ & id & k & O).
        destruct (i_ops _ _ _ _ _ _ _ I n) as [[X _]|(p & Hp & En)]; [rewrite O in X; discriminate X|].
        destruct (i_linked _ _ _ _ _ _ _ I p Hp) as (id' & k' & sl & L).
        pose proof (l_op _ _ _ _ _ _ _ _ _ _ L) as L1. rewrite En, O in L1. injection L1 as L1 _ _.
        exists (N.to_nat (p_head p)). split; [pose proof (l_head _ _ _ _ _ _ _ _ _ _ L); lia|]. exists p. auto.
      * intros n m x Hn Hm (p & Hp & <- & Q1 & X1) (p' & Hp' & <- & Q2 & X2).
        f_equal. eapply (key_inj P'); eauto; [apply I|]. unfold key. f_equal; [congruence|lia].
Qed.

(** A request that failed for the guest failed at the device. *)
Lemma vhost_failed : forall (contents : nat -> sector) g P tr gtr, session valid qsize did nslots bufsize size m0 g P tr gtr ->
  (forall x, x < size -> N.of_nat (length (contents x)) = 512%N) ->
  forall d : disk sector, disk_behaviour size contents tr d ->
  forall n q h ok data, In (TDone n q h ok data) gtr -> exists id, In (TDone n q id ok data) tr.
Proof.
  intros contents g P tr gtr S Hc. induction S as [|g P tr gtr e g' t P' w S IH D G W]; intros d (es & R) n q h ok data Hin; [destruct Hin|].
  destruct (drun_cut _ _ _ _ _ _ R) as (e1 & e2 & dm & R1 & R2).
  apply in_app_iff in Hin as [Hin|Hin].
  { destruct (IH dm (ex_intro _ _ R1) _ _ _ _ _ Hin) as (id & X). exists id. apply in_or_app. auto. }
  destruct (sim_session valid qsize did nslots bufsize size m0 contents g P tr gtr Hc S e1 dm R1) as (es' & d' & _ & I).
  destruct W as [q0 c n0 rq head datas st r P E B Io A|q0 c n0 rq head datas st P E B Io|n0 q0 id okd datad h0 n' rq ok0 data0 P1 P2 E U F|
    q0 ei needs P E|a b P E|m P E]; subst e; cbn [gstep] in G; try (destruct Hin as [X|[]]; discriminate X); try destruct Hin.
  2: contradiction.
  injection H as -> -> <- -> ->.
  destruct (complete_one valid qsize id okd (bytes_of datad) (at_queue g q)) as [s'| |] eqn:Hp; cbn [bindr] in G; try discriminate.
  injection G as <- <-.
  destruct (drun_item _ _ _ _ _ _ R2) as (e0 & e & e3 & da & db & R3 & R4 & R5).
  destruct (sim_silents valid qsize did size _ _ _ _ _ _ I R3) as (da' & S1 & I1).
  apply item_done in R4 as (k & Ho & R4).
  destruct (inv_at _ _ _ _ _ _ _ _ _ I1 Ho) as (p & id' & k' & sl & HP & En & L & Eo & Ho'). subst n0.
  injection Eo as -> <- <-.
  destruct (done_found valid qsize did bufsize size _ _ _ _ _ _ _ _ _ _ _ _ _ _ I1 L R4 Hp) as (Co & Sm & Us & Fi).
  assert (p = mk_pending (p_queue p) h0 n rq) as Ep.
  { eapply (key_inj (P1 ++ mk_pending (p_queue p) h0 n rq :: P2)); [apply I|exact HP|apply in_or_app; right; left; reflexivity|].
    unfold key. cbn [p_queue p_head]. f_equal. unfold used_ring in U. rewrite put_queue, Nat.eqb_refl, Us in U.
    apply app_inv_head in U. injection U as ->. reflexivity. }
  assert (h0 = p_head p /\ n = p_serial p /\ rq = p_rq p) as (-> & -> & ->) by (rewrite Ep; auto).
  cbn [put g_mem] in F. destruct (finds_unique _ _ _ _ _ _ F Fi) as [-> ->].
  exists id. apply in_or_app. right. now left.
Qed.
End Vhost.

(** ** The ublk backend *)
Section Ublk.
Import UblkModel GuestModel UblkDiskModel UblkDiskSpec UblkProofs UblkDiskProofs.
Variable max : N.
Variable depth : nat.
Variable size : nat.
Hypothesis Hm : (max < 2 ^ 31)%N.

Lemma ublk_bound : forall (contents : nat -> sector) u P tr ktr, session max depth size u P tr ktr ->
  (forall x, x < size -> N.of_nat (length (contents x)) = 512%N) ->
  forall d : disk sector, disk_behaviour size contents tr d ->
  forall q, at_most depth q tr.
Proof.
  intros contents u P tr ktr S Hc. induction S as [|u P tr ktr e u' t P' w S IH D G W]; intros d (es & R) q.
  - intros t1 t2 E. destruct t1; [cbn; lia|discriminate E].
  - pose proof R as R0. destruct (drun_cut _ _ _ _ _ _ R) as (e1 & e2 & dm & R1 & R2).
    apply at_most_snoc; [eapply IH; eexists; exact R1| |].
    + destruct (sim_session max depth size Hm contents _ _ _ _ Hc S _ _ R1) as (es' & d' & EE & _ & I).
      exact (ustep_short max depth size Hm _ _ _ _ _ _ _ _ I G).
    + assert (S' : session max depth size u' P' (tr ++ t) (ktr ++ w)) by (eapply s_event; eauto).
      destruct (sim_session max depth size Hm contents _ _ _ _ Hc S' _ _ R0) as (es' & d' & EE & _ & I).
      destruct (run_under_way size contents es d _ R0 q) as [N F].
      apply (pigeon (fun n x => exists p, In p P' /\ p_serial p = n /\ p_queue p = q /\ p_tag p = x)); auto.
      * intros n Hn. destruct (F n Hn) as (_ & id & k & O).
        destruct (v_ops _ _ _ _ _ _ _ _ I _ _ _ _ O) as (p & Hp & Ek & En & X).
        unfold key in Ek. injection Ek as Eq Et. exists id. split; [|exists p; auto].
        assert (id < length (h_inflight (u_queue u' q))) by (apply nth_error_Some; congruence).
        destruct (v_wf _ _ _ _ _ _ _ _ I q). lia.
      * intros n m x Hn Hm' (p & Hp & <- & Q1 & X1) (p' & Hp' & <- & Q2 & X2).
        f_equal. eapply (key_inj P'); eauto; [apply I|]. unfold key. congruence.
Qed.
End Ublk.

(** ** Layers in between *)
Section Crypt.
Import CryptOpenModel.
Context {V : Type}.
Variable enc dec : nat -> V -> V.

(** The same request or report, but for the data. *)
Definition same (i j : titem V) : Prop :=
  match i, j with
  | TIssue n q id _, TIssue n' q' id' _ => n = n' /\ q = q' /\ id = id'
  | TDone n q id ok _, TDone n' q' id' ok' _ => n = n' /\ q = q' /\ id = id' /\ ok = ok'
  | TCrash, TCrash => True
  | _, _ => False
  end.

Lemma crypt_same : forall es s s' g b, krun enc dec s es = Some (s', g, b) -> Forall2 same g b.
Proof.
  induction es as [|e es IH]; intros s s' g b H; cbn [krun] in H; [injection H as _ <- <-; constructor|].
  destruct (kstep enc dec s e) as [[[s1 t1] b1]|] eqn:E1; [|discriminate].
  destruct (krun enc dec s1 es) as [[[s2 t2] b2]|] eqn:E2; [|discriminate]. injection H as _ <- <-.
  apply Forall2_app; [|eauto]. clear - E1. destruct e as [bf data|n q id off cnt bf|n q id off cnt bf|n q id|n ok data|]; cbn [kstep] in E1.
  - injection E1 as _ <- <-. constructor.
  - injection E1 as _ <- <-. repeat constructor.
  - destruct (CryptModel.defined _); [|discriminate]. destruct (CryptModel.crypt_loop _ _ _ _ _); [|injection E1 as _ <- <-; constructor..].
    destruct (CryptModel.defined _); [|discriminate]. injection E1 as _ <- <-. repeat constructor.
  - injection E1 as _ <- <-. repeat constructor.
  - destruct (k_ops s n) as [[q id w]|]; [|discriminate]. injection E1 as _ <- <-. repeat constructor.
  - injection E1 as _ <- <-. repeat constructor.
Qed.

Lemma same_under_way : forall q t1 t2, Forall2 same t1 t2 -> forall l, fold_left (note q) t1 l = fold_left (note q) t2 l.
Proof.
  intros q t1 t2 H. induction H as [|i j t1 t2 S _ IH]; intros l; cbn [fold_left]; auto. rewrite IH. f_equal.
  destruct i as [n q1 id r|n q1 id ok data|], j as [n' q2 id' r'|n' q2 id' ok' data'|]; cbn [same note] in *; try contradiction; auto.
  - destruct S as (-> & -> & _). reflexivity.
  - destruct S as (-> & -> & _). reflexivity.
Qed.

Lemma same_at_most : forall k q t1 t2, Forall2 same t1 t2 -> at_most k q t1 -> at_most k q t2.
Proof.
  intros k q t1 t2 S M a b ->. apply Forall2_app_inv_r in S as (a' & b' & S1 & S2 & ->).
  specialize (M a' b' eq_refl). unfold under_way in *. rewrite (same_under_way q a' a S1) in M. exact M.
Qed.

Lemma same_done : forall t1 t2 n q id ok data, Forall2 same t1 t2 -> In (TDone n q id ok data) t1 -> exists data', In (TDone n q id ok data') t2.
Proof.
  intros t1 t2 n q id ok data S H. induction S as [|i j t1 t2 S _ IH]; [destruct H|]. destruct H as [->|H].
  - destruct j as [n' q2 id' r'|n' q2 id' ok' data'|]; cbn [same] in S; try contradiction. destruct S as (-> & -> & -> & ->). exists data'. now left.
  - destruct (IH H) as (data' & X). exists data'. now right.
Qed.
End Crypt.

Section Lazy.
Import MetadataModel LazyState LazyModel LazyInv LazySim LazyRun LazySpec LazyProofs LayerSpec LayerModel LayerIds LayerProofs.
Context {V : Type}.
Variable c : cfg V.
Variable base : nat -> V.
Variable h : nat -> N.
Hypothesis WC : well_configured c h.

Notation Related := (Related c base h).
Notation history := (history c base h).

(** What the base works on for guest queue [q] is under way for the guest. *)
Lemma guest_covers : forall pe so es d O B D F n q id k, Related pe so es d O B D F ->
  d_ops d n = Some (mk_dop (S q) id k) -> In n (under_way q (history es)).
Proof.
  intros pe so es d O B D F n q id k [E A [Lh Ld Lo Lp] Fi] On.
  assert (Ln : linked c (O n) (d_ops d n)).
  { apply Lo. intros o r X. destruct (Lp _ _ _ X) as [Y _]. congruence. }
  rewrite On in Ln. destruct (O n) as [[o [|] ko]|] eqn:Oo; cbn [linked] in Ln; try discriminate Ln.
  destruct Ln as (k' & X & _). injection X as X1 X2 _. destruct o as [q0 id0|st]; cbn in X1, X2; [|discriminate X1].
  injection X1 as ->. destruct (refines c base h WC es) as (ds & (des & Bs) & HS). rewrite E in HS.
  destruct (s_guest _ _ _ HS n q0 id0 DBase ko Oo) as (k1 & Dn & _). eapply worked_on; eauto.
Qed.

Lemma lazy_bound_open : forall k q oes so es d O B D F so' g b des0 des tr0 d1,
  Related None so es d O B D F -> (forall e, In e oes -> event_fits c e) -> orun c so oes = Some (so', g, b) ->
  drun (target c) (new_disk base) des0 = Some (d, tr0) -> drun (target c) d des = Some (d1, b) ->
  at_most k q (history es ++ g) -> at_most k (S q) tr0 -> at_most k (S q) (tr0 ++ b).
Proof.
  intros k q. induction oes as [|e oes IH]; intros so es d O B D F so' g b des0 des tr0 d1 R Fe Hs R0 Hr Mg M0; cbn [orun] in Hs.
  - injection Hs as _ _ <-. now rewrite app_nil_r.
  - destruct (ostep c so e) as [[[s1 t1] be]|] eqn:E1; [|discriminate Hs].
    destruct (orun c s1 oes) as [[[s2 t2] br]|] eqn:E2; [|discriminate Hs]. injection Hs as <- <- <-.
    pose proof (Fe e (or_introl eq_refl)) as Fe1.
    destruct (drun_cut _ _ _ _ _ _ Hr) as (x1 & x2 & dm & D1 & D2).
    destruct (sim_event c base h WC _ _ _ _ _ _ _ _ _ _ _ _ _ R Fe1 E1 D1) as (es1 & O1 & B1 & DD1 & F1 & R1 & H1).
    rewrite app_assoc in Mg. rewrite <- H1 in Mg.
    pose proof (drun_app2 _ _ _ _ _ _ _ _ R0 D1) as R0'.
    rewrite app_assoc. refine (IH s1 _ dm _ _ _ _ _ _ _ _ _ _ _ R1 (fun e0 X => Fe e0 (or_intror X)) E2 R0' D2 Mg _).
    destruct (sim_head c base h WC _ _ _ _ _ _ _ _ _ _ _ R Fe1 E1) as (hd & rest & Eb & Hn & Hh). rewrite Eb in *.
    destruct (drun_cut _ _ _ _ _ _ D1) as (y1 & y2 & dh & D3 & D4).
    destruct (Hh _ _ D3) as (pe & es2 & O2 & B2 & DD2 & F2 & Ea & _).
    rewrite app_assoc. apply at_most_snoc; [apply at_most_quiet; auto| |].
    + rewrite Ea. destruct pe as [[[? ?] ?]|]; cbn [announced]; eauto.
    + rewrite <- app_assoc. etransitivity; [|apply (Mg (history (es ++ es1)) t2 eq_refl)].
      destruct (run_under_way (target c) base _ _ _ R0' (S q)) as [N Fn].
      apply NoDup_incl_length; auto. intros n Hin. destruct (Fn n Hin) as (_ & id & k' & On).
      eapply guest_covers; eauto.
Qed.

Lemma lazy_bound : forall k q oes so g b d, (forall e, In e oes -> event_fits c e) ->
  orun c (oinit c h) oes = Some (so, g, b) -> disk_behaviour (target c) base b d ->
  at_most k q g -> at_most k (S q) b.
Proof.
  intros k q oes so g b d Fe Hs (des & Hd) M.
  apply (lazy_bound_open k q oes _ [] _ _ _ _ _ _ _ _ [] des [] d (related_init c base h) Fe Hs eq_refl Hd); auto.
  intros a b' E. destruct a; [cbn; lia|discriminate E].
Qed.
End Lazy.
