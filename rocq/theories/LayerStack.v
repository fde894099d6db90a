(** The contract between layers, for the threads of a backend and for the
    encrypting device. *)
From Coq Require Import List Arith NArith Bool Lia ZifyBool ZifyNat ZifyN.
Import ListNotations.
From Verif Require Import Base BaseFacts DiskSpec TraceSpec TraceFacts CryptModel CryptSpec CryptProofs LayerSpec LayerIds.
From Verif Require VhostModel VhostSpec VhostProofs GuestModel GuestSpec GuestProofs.

(** ** The encrypting device needs its caller to keep to the contract *)
Section Crypt.
Context {V : Type}.
Variable enc dec : nat -> V -> V.
Variable size : nat.
Hypothesis dec_enc : forall x v, dec x (enc x v) = v.

(** Ids in use in the base are ids of requests the caller waits for. *)
Lemma id_free_of contents (s : cdev V) p tr q id : sim dec s p -> disk_behaviour size contents tr p ->
  (forall m, ~ waiting tr m q id) -> id_free s q id.
Proof.
  intros [_ S] B W n o En Eq Ei. pose proof (ds_ops _ _ _ S n) as X. rewrite En in X.
  destruct (d_ops p n) as [[q' id' k]|] eqn:Ep; cbn in X; [|contradiction]. destruct X as (X1 & X2 & _).
  apply (W n). apply (in_flight size contents tr p B). exists k. congruence.
Qed.

Lemma calls_ok_of contents : forall es (s : cdev V) p tr s' tr', sim dec s p -> disk_behaviour size contents tr p ->
  crun enc dec size s es = Some (s', tr') -> bufs_ok enc dec size s es ->
  respects size contents (tr ++ tr') -> calls_ok enc dec size s es.
Proof.
  induction es as [|e es IH]; intros s p tr s' tr' S B R Hb Hr; [exact I|].
  cbn [crun] in R. destruct (cstep enc dec size s e) as [[s1 t1]|] eqn:E; [|discriminate R].
  destruct (crun enc dec size s1 es) as [[s2 t2]|] eqn:E2; [|discriminate R]. injection R as <- <-.
  cbn [bufs_ok] in Hb. rewrite E in Hb. destruct Hb as [Hb1 Hb2].
  assert (Fr : forall n q id r, t1 = [TIssue n q id r] -> id_free s q id).
  { intros n q id r ->. eapply id_free_of; eauto. apply (Hr tr n q id r t2); [reflexivity|]. exists p. exact B. }
  assert (C : call_ok s e).
  { destruct e as [b data|n q id off cnt b|n q id off cnt b|n q id|e|n ok|sv]; cbn [call_ok buf_ok] in *; auto.
    - split; auto. cbn [cstep] in E. destruct (dstep _ _ _) as [[d ?]|]; [|discriminate E]. injection E as _ <-.
      eapply Fr. reflexivity.
    - split; auto. cbn [cstep] in E. destruct (defined _) as [plain|]; [|discriminate E].
      destruct (crypt_loop_ok enc off cnt 0 (c_mem s b)) as (buf & Eb & _); [lia|]. rewrite Eb in E.
      destruct (defined _); [|discriminate E]. destruct (dstep _ _ _) as [[d ?]|]; [|discriminate E]. injection E as _ <-.
      eapply Fr. reflexivity.
    - cbn [cstep] in E. destruct (dstep _ _ _) as [[d ?]|]; [|discriminate E]. injection E as _ <-.
      eapply Fr. reflexivity. }
  cbn [calls_ok]. rewrite E. split; [exact C|].
  destruct (sim_run enc dec size dec_enc contents [e] s tr p s1 t1 S B) as (p1 & B1 & S1).
  { cbn [calls_ok]. rewrite E. auto. }
  { cbn [crun]. rewrite E, app_nil_r. reflexivity. }
  eapply IH; eauto. rewrite <- app_assoc. exact Hr.
Qed.

Theorem contract_met stored es s tr : crun enc dec size (new_cdev stored) es = Some (s, tr) ->
  bufs_ok enc dec size (new_cdev stored) es -> respects size (fun x => dec x (stored x)) tr ->
  calls_ok enc dec size (new_cdev stored) es.
Proof.
  intros R Hb Hr. eapply (calls_ok_of (fun x => dec x (stored x)) es _ (new_disk (fun x => dec x (stored x))) []); eauto.
  - apply sim_init.
  - exists []. reflexivity.
Qed.
End Crypt.

(** ** The threads of a backend keep to it *)
Section Backend.
Import VhostModel VhostSpec VhostProofs GuestModel GuestSpec GuestProofs.

Theorem backend_respects valid qsize did nslots bufsize size m0 g P tr gtr contents :
  session valid qsize did nslots bufsize size m0 g P tr gtr ->
  (forall x, (x < size)%nat -> N.of_nat (length (contents x)) = 512%N) ->
  respects size contents tr.
Proof.
  intros S Hc. induction S as [|g P tr gtr e g' t P' w S IH D G W].
  - intros [|? ?] n q id r t2 E; discriminate E.
  - intros t1 n q id r t2 E Hb m Hw.
    assert (Cut : (exists t3, tr = t1 ++ TIssue n q id r :: t3) \/ (exists t0, t1 = tr ++ t0 /\ t = t0 ++ TIssue n q id r :: t2)).
    { apply app_eq_app in E as (l & [[E1 E2]|[E1 E2]]); [|right; exists l; auto].
      destruct l as [|i l]; cbn in E2.
      - right. exists []. rewrite app_nil_r in *. subst tr. auto.
      - injection E2 as <- E2. left. exists l. auto. }
    destruct Cut as [(t3 & Et)|(t0 & -> & Et)]; [eapply IH; eauto|].
    destruct e as [q1 c n1|n1 q1 id1 ok data|q1 ei needs|a b|mm]; cbn [gstep] in G.
    2:{ destruct (complete_one _ _ _ _ _ _) in G; cbn [bindr] in G; try discriminate G. injection G as _ <-.
        destruct t0 as [|? [|? ?]]; discriminate Et. }
    2,3: injection G as _ <-; destruct t0; discriminate Et.
    2: injection G as _ <-; destruct t0 as [|? [|? ?]]; discriminate Et.
    destruct (process_chain _ _ _ _ _) as [s'| |] eqn:Hp; cbn [bindr] in G; try discriminate G. injection G as <- <-.
    destruct Hb as (d & des & Hd).
    destruct (drun_cut _ _ _ _ _ _ Hd) as (e1 & e2 & dm & R1 & R2).
    destruct (sim_session _ _ _ _ _ _ _ contents _ _ _ _ Hc S _ _ R1) as (es' & d' & _ & I).
    destruct (process_chain_effect valid qsize did c (at_queue g q1) s' (i_vinv _ _ _ _ _ _ _ I q1) Hp) as [F|(rq & o & _ & F)].
    { unfold handed in Et. rewrite (fa_ops _ _ _ _ _ F), skipn_all in Et. destruct t0; discriminate Et. }
    rewrite (handed_one valid _ _ _ _ _ _ _ F) in Et. destruct t0 as [|? [|? ?]]; try discriminate Et.
    injection Et as _ Eq Ei _ _. rewrite app_nil_r in *.
    destruct (proj1 (LayerIds.in_flight _ _ _ _ (ex_intro _ des Hd) m _ _) Hw) as (k & Ek).
    destruct (sim_session _ _ _ _ _ _ _ contents _ _ _ _ Hc S _ _ Hd) as (es2 & d2 & _ & I2).
    destruct (inv_at _ _ _ _ _ _ _ _ _ I2 Ek) as (p & id' & k' & sl & _ & _ & L & Eo & _).
    injection Eo as E1 E2 _. apply (ho_new _ _ _ _ _ _ F). cbn [at_queue set_mem v_out].
    rewrite Ei, Eq, E1, E2. apply L.
Qed.
End Backend.
