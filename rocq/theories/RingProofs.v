(** Proofs for C83: requests in a ring that has a slot for each. *)
From Coq Require Import List Arith NArith Bool Lia ZifyBool ZifyNat.
Import ListNotations.
From Verif Require Import Base BaseFacts DiskSpec SyncModel UringDiskModel RingSpec.

Section Ring.
Context {V : Type}.
Variable us : N.
Variable per : nat.
Variable readonly osync : bool.
Variable entries : nat.

Notation fstep := (fstep us per readonly osync entries).
Notation frun := (frun us per readonly osync entries).

Lemma under_way_app : forall q (t1 t2 : list (titem V)), under_way q (t1 ++ t2) = fold_left (note q) t2 (under_way q t1).
Proof. intros. apply fold_left_app. Qed.

Lemma added_snoc : forall q (es : list (fevent V)) e, added q (es ++ [e]) = count q (added q es) e.
Proof. intros. unfold added. rewrite fold_left_app. reflexivity. Qed.

(** What holds of the device after the calls [es]. *)
Record good (s : fdev V) (es : list (fevent V)) : Prop := {
  g_used : forall n o, f_op s n = Some o -> f_used s n = true;
  g_lists : forall q n, In n (f_fin s q ++ f_cq s q) -> f_used s n = true /\
    forall o, f_op s n = Some o -> f_ch o = q /\ exists ok, f_phase o = Finished ok;
  g_sq : forall q, NoDup (f_sq s q);
  g_queued : forall q n, In n (f_sq s q) -> exists id w, f_op s n = Some (mk_fop q id w Queued)
}.

(** The requests of [q] that failed did so in the kernel. *)
Definition kernel_only (q : nat) (s : fdev V) (es : list (fevent V)) : Prop :=
  forall n o, f_op s n = Some o -> f_ch o = q -> f_phase o = Finished false -> kernel_failed n es.

Lemma report_all_spec : forall l (s : fdev V) s' t, report_all l s = (s', t) ->
  f_used s' = f_used s /\ f_sq s' = f_sq s /\ f_fin s' = f_fin s /\ f_cq s' = f_cq s /\
  (forall n o, f_op s' n = Some o -> f_op s n = Some o /\ ~ In n l) /\
  (forall n, ~ In n l -> f_op s' n = f_op s n) /\
  (forall i, In i t -> exists n q id w ok data, i = TDone n q id ok data /\ In n l /\ f_op s n = Some (mk_fop q id w (Finished ok))).
Proof.
  induction l as [|x l IH]; intros s s' t H; cbn [report_all] in H.
  { injection H as <- <-. repeat split; auto. intros i []. }
  destruct (report_all l (forget x s)) as [s1 t1] eqn:E. injection H as <- <-.
  destruct (IH _ _ _ E) as (A & B & C & D & F & G & K). cbn [forget f_used f_sq f_fin f_cq f_op] in *.
  split; [exact A|]. split; [exact B|]. split; [exact C|]. split; [exact D|]. split; [|split].
  - intros n o Hn. destruct (F _ _ Hn) as [F1 F2]. unfold upd in F1. destruct (Nat.eqb_spec n x) as [->|Hx]; [discriminate|].
    split; auto. intros [X|X]; auto.
  - intros n Hn. rewrite G; [|intros X; apply Hn; now right]. apply upd_neq. intros ->. apply Hn. now left.
  - intros i Hi. apply in_app_iff in Hi as [Hi|Hi].
    + unfold report in Hi. destruct (f_op s x) as [[q id w [|mv si|ok]]|] eqn:Ex; try (destruct Hi; fail).
      destruct Hi as [<-|[]]. do 6 eexists. split; [reflexivity|]. split; [now left|exact Ex].
    + destruct (K _ Hi) as (n & q & id & w & ok & data & E1 & E2 & E3). exists n, q, id, w, ok, data. split; auto. split; [now right|].
      unfold upd in E3. destruct (n =? x); [discriminate|exact E3].
Qed.

Lemma in_snoc : forall (l : list nat) n m, In m (l ++ [n]) -> In m l \/ m = n.
Proof. intros l n m H. apply in_app_iff in H as [H|[H|[]]]; auto. Qed.

Lemma nodup_snoc : forall (l : list nat) n, NoDup l -> ~ In n l -> NoDup (l ++ [n]).
Proof.
  intros l n H Hn. apply NoDup_rev in H. rewrite <- (rev_involutive (l ++ [n])). apply NoDup_rev. rewrite rev_app_distr. cbn.
  constructor; auto. now rewrite <- in_rev.
Qed.

Lemma nodup_skipn : forall (l : list nat) k, NoDup l -> NoDup (skipn k l).
Proof.
  induction l as [|x l IH]; intros [|k] H; cbn; auto. inversion H; auto.
Qed.

Lemma in_skipn : forall (l : list nat) k x, In x (skipn k l) -> In x l.
Proof. intros l k x H. rewrite <- (firstn_skipn k l). apply in_or_app. auto. Qed.

Lemma firstn_skipn_apart : forall (l : list nat) k x, NoDup l -> In x (firstn k l) -> In x (skipn k l) -> False.
Proof.
  intros l k x H A B. rewrite <- (firstn_skipn k l) in H. revert A B H. generalize (firstn k l), (skipn k l). clear.
  intros a b. induction a as [|y a IH]; cbn; [auto|]. intros [->|A] B H; inversion H as [|? ? Hn H']; subst; auto.
  apply Hn. apply in_or_app. auto.
Qed.

Lemma is_in_iff : forall n l, is_in n l = true <-> In n l.
Proof.
  intros n l. unfold is_in. rewrite existsb_exists. split.
  - intros (x & Hx & E). apply Nat.eqb_eq in E. now subst.
  - intros H. exists n. split; auto. apply Nat.eqb_refl.
Qed.

Lemma good_push : forall s es e n q id w, good s es -> f_used s n = false -> good (push entries n q id w s) (es ++ [e]).
Proof.
  intros s es e n q id w [G1 G2 G3 G4] Hu.
  assert (Hn : f_op s n = None) by (destruct (f_op s n) eqn:E; auto; apply G1 in E; congruence).
  assert (Hl : forall q', ~ In n (f_fin s q' ++ f_cq s q')) by (intros q' X; apply G2 in X as [X _]; congruence).
  assert (Hs : forall q', ~ In n (f_sq s q')) by (intros q' X; destruct (G4 _ _ X) as (? & ? & X'); congruence).
  unfold push. destruct (_ <? _); constructor; cbn [f_op f_used f_fin f_cq f_sq].
  - intros m o. unfold upd. destruct (m =? n) eqn:Em; auto. apply G1.
  - intros q' m Hm. assert (Hmn : m <> n) by (intros ->; exact (Hl _ Hm)). rewrite !upd_neq by auto. apply G2, Hm.
  - intros q'. unfold upd. destruct (q' =? q) eqn:Eq; auto. apply nodup_snoc; auto.
  - intros q' m Hm. unfold upd in Hm. destruct (Nat.eqb_spec q' q) as [->|].
    + apply in_snoc in Hm as [Hm| ->]; [|rewrite upd_eq; eauto]. rewrite upd_neq; [apply G4, Hm|]. intros ->. exact (Hs _ Hm).
    + rewrite upd_neq; [apply G4, Hm|]. intros ->. exact (Hs _ Hm).
  - intros m o. unfold upd. destruct (m =? n) eqn:Em; auto. apply G1.
  - intros q' m Hm. destruct (Nat.eq_dec m n) as [->|Hmn].
    + split; [apply upd_eq|]. intros o Ho. rewrite upd_eq in Ho. injection Ho as <-. cbn. split; [|eauto].
      unfold upd in Hm. destruct (Nat.eqb_spec q' q) as [Eq|]; [congruence|]. exfalso. exact (Hl _ Hm).
    + rewrite !upd_neq by auto. apply G2. unfold upd in Hm. destruct (q' =? q) eqn:Eq; auto. apply Nat.eqb_eq in Eq. subst q'.
      rewrite <- app_assoc in Hm. apply in_app_iff in Hm as [Hm|[Hm|Hm]]; [|subst; contradiction|]; apply in_or_app; auto.
  - exact G3.
  - intros q' m Hm. rewrite upd_neq; [apply G4, Hm|]. intros ->. exact (Hs _ Hm).
Qed.

(** One step, apart from how full the rings are. *)
Lemma good_step : forall s es e s' t, good s es -> fstep s e = Some (s', t) -> good s' (es ++ [e]).
Proof.
  intros s es e s' t G H. destruct e as [b data|n q id soff cnt b|n q id soff cnt b|n q id|q k|n i|n r|q|sv]; cbn [UringDiskModel.fstep] in H.
  - injection H as <- <-. destruct G. constructor; auto.
  - destruct (f_used s n) eqn:U; [discriminate|]. injection H as <- <-. apply good_push; auto.
  - destruct (f_used s n) eqn:U; [discriminate|]. injection H as <- <-. apply good_push; auto.
  - destruct (f_used s n) eqn:U; [discriminate|]. destruct osync; injection H as <- <-; [|apply good_push; auto].
    pose proof (good_push s es (FFlush n q id) n q id WSync G U) as P. clear P.
    destruct G as [G1 G2 G3 G4].
    assert (Hn : f_op s n = None) by (destruct (f_op s n) eqn:E; auto; apply G1 in E; congruence).
    assert (Hl : forall q', ~ In n (f_fin s q' ++ f_cq s q')) by (intros q' X; apply G2 in X as [X _]; congruence).
    assert (Hs : forall q', ~ In n (f_sq s q')) by (intros q' X; destruct (G4 _ _ X) as (? & ? & X'); congruence).
    constructor; cbn [f_op f_used f_fin f_cq f_sq].
    + intros m o. unfold upd. destruct (m =? n) eqn:Em; auto. apply G1.
    + intros q' m Hm. destruct (Nat.eq_dec m n) as [->|Hmn].
      * split; [apply upd_eq|]. intros o Ho. rewrite upd_eq in Ho. injection Ho as <-. cbn. split; [|eauto].
        unfold upd in Hm. destruct (Nat.eqb_spec q' q) as [Eq|]; [congruence|]. exfalso. exact (Hl _ Hm).
      * rewrite !upd_neq by auto. apply G2. unfold upd in Hm. destruct (q' =? q) eqn:Eq; auto. apply Nat.eqb_eq in Eq. subst q'.
        rewrite <- app_assoc in Hm. apply in_app_iff in Hm as [Hm|[Hm|Hm]]; [|subst; contradiction|]; apply in_or_app; auto.
    + exact G3.
    + intros q' m Hm. rewrite upd_neq; [apply G4, Hm|]. intros ->. exact (Hs _ Hm).
  - injection H as <- <-. destruct G as [G1 G2 G3 G4]. constructor; cbn [f_op f_used f_fin f_cq f_sq].
    + intros m o Ho. destruct (is_in m _); [|eapply G1; eauto]. destruct (f_op s m) eqn:E; [eapply G1; eauto|discriminate].
    + intros q' m Hm. destruct (G2 _ _ Hm) as [A B]. split; auto. intros o Ho.
      destruct (is_in m (firstn k (f_sq s q))) eqn:Ei; [|auto]. apply is_in_iff in Ei.
      assert (In m (f_sq s q)) as X by (rewrite <- (firstn_skipn k (f_sq s q)); apply in_or_app; auto).
      destruct (G4 _ _ X) as (id & w & E). destruct (B _ E) as (_ & ok & C). discriminate C.
    + intros q'. unfold upd. destruct (q' =? q); auto. apply nodup_skipn; auto.
    + intros q' m Hm. unfold upd in Hm. destruct (is_in m (firstn k (f_sq s q))) eqn:Ei.
      * exfalso. apply is_in_iff in Ei. destruct (Nat.eqb_spec q' q) as [->|Hq]; [exact (firstn_skipn_apart _ _ _ (G3 q) Ei Hm)|].
        assert (In m (f_sq s q)) as X by (rewrite <- (firstn_skipn k (f_sq s q)); apply in_or_app; auto).
        destruct (G4 _ _ X) as (id & w & E). destruct (G4 _ _ Hm) as (id' & w' & E'). congruence.
      * apply G4. destruct (Nat.eqb_spec q' q) as [->|Hq]; auto. eapply in_skipn; eauto.
  - (* FMove *)
    destruct (f_op s n) as [[q id [off len b|off len b|] [|mv si|ok]]|] eqn:Eo; try discriminate.
    + destruct (cur_cell _); [|discriminate]. destruct (_ && _ && _); [|discriminate]. injection H as <- <-.
      destruct G as [G1 G2 G3 G4]. constructor; cbn [f_op f_used f_fin f_cq f_sq]; auto.
      * intros m o. unfold upd. destruct (Nat.eqb_spec m n) as [->|]; [|apply G1]. intros _. eapply G1; eauto.
      * intros q' m Hm. destruct (G2 _ _ Hm) as [A B]. split; auto. intros o. unfold upd. destruct (Nat.eqb_spec m n) as [->|]; [|apply B].
        destruct (B _ Eo) as (_ & ok & X). discriminate X.
      * intros q' m Hm. destruct (G4 _ _ Hm) as (id' & w' & E). rewrite upd_neq; [eauto|]. intros ->. congruence.
    + destruct (nth_error _ _); [|discriminate]. destruct (_ && _ && _); [|discriminate]. injection H as <- <-.
      destruct G as [G1 G2 G3 G4]. constructor; cbn [f_op f_used f_fin f_cq f_sq]; auto.
      * intros m o. unfold upd. destruct (Nat.eqb_spec m n) as [->|]; [|apply G1]. intros _. eapply G1; eauto.
      * intros q' m Hm. destruct (G2 _ _ Hm) as [A B]. split; auto. intros o. unfold upd. destruct (Nat.eqb_spec m n) as [->|]; [|apply B].
        destruct (B _ Eo) as (_ & ok & X). discriminate X.
      * intros q' m Hm. destruct (G4 _ _ Hm) as (id' & w' & E). rewrite upd_neq; [eauto|]. intros ->. congruence.
  - (* FComplete *)
    destruct (f_op s n) as [[q id w [|mv si|ok]]|] eqn:Eo; try discriminate. destruct (possible w mv r); [|discriminate]. injection H as <- <-.
    destruct G as [G1 G2 G3 G4]. constructor; cbn [f_op f_used f_fin f_cq f_sq]; auto.
    + intros m o. unfold upd. destruct (Nat.eqb_spec m n) as [->|]; [|apply G1]. intros _. eapply G1; eauto.
    + intros q' m Hm. destruct (Nat.eq_dec m n) as [->|Hmn].
      * split; [eapply G1; eauto|]. intros o Ho. rewrite upd_eq in Ho. injection Ho as <-. cbn. split; [|eauto].
        unfold upd in Hm. destruct (Nat.eqb_spec q' q) as [Eq|]; [congruence|]. destruct (G2 _ _ Hm) as [_ B]. destruct (B _ Eo) as [X _]. exact X.
      * rewrite upd_neq by auto. apply G2. unfold upd in Hm. destruct (Nat.eqb_spec q' q) as [->|]; auto.
        rewrite app_assoc in Hm. apply in_snoc in Hm as [Hm|Hm]; [auto|contradiction].
    + intros q' m Hm. destruct (G4 _ _ Hm) as (id' & w' & E). rewrite upd_neq; [eauto|]. intros ->. congruence.
  - (* FPoll *)
    injection H as H. apply report_all_spec in H as (A & B & C & D & F & K & _). cbn [f_used f_sq f_fin f_cq f_op] in *.
    destruct G as [G1 G2 G3 G4]. constructor.
    + intros n o Ho. rewrite A. apply F in Ho as [Ho _]. eapply G1; eauto.
    + intros q' n Hn. rewrite C, D, A in *. unfold upd in Hn. destruct (Nat.eqb_spec q' q) as [->|]; [destruct Hn|].
      destruct (G2 _ _ Hn) as [X Y]. split; auto. intros o Ho. apply F in Ho as [Ho _]. auto.
    + intros q'. rewrite B. apply G3.
    + intros q' n Hn. rewrite B in Hn. destruct (G4 _ _ Hn) as (id & w & E). rewrite K; [eauto|].
      intros X. destruct (G2 _ _ X) as [_ Y]. destruct (Y _ E) as (_ & ok & Z). discriminate Z.
  - injection H as <- <-. constructor; cbn [f_op f_used f_fin f_cq f_sq]; try discriminate; try (intros; contradiction). intros; constructor.
Qed.

Lemma kernel_only_more : forall q s es e, kernel_only q s es -> kernel_only q s (es ++ [e]).
Proof. intros q s es e H n o A B C. unfold kernel_failed. apply in_or_app. left. eapply H; eauto. Qed.

(** A step at which the ring of [q] is not full. *)
Lemma kernel_only_step : forall q s es e s' t, good s es -> kernel_only q s es -> fstep s e = Some (s', t) ->
  (forall n id r, t = [TIssue n q id r] -> length (f_sq s q) < entries) ->
  kernel_only q s' (es ++ [e]) /\ (forall n id data, In (TDone n q id false data) t -> kernel_failed n (es ++ [e])).
Proof.
  intros q s es e s' t G K H Room.
  assert (P : forall n q' id w, f_used s n = false -> (q' = q -> length (f_sq s q) < entries) ->
    kernel_only q (push entries n q' id w s) (es ++ [e])).
  { intros n q' id w U R. unfold push. destruct (length (f_sq s q') <? entries) eqn:El.
    - intros m o. cbn [f_op]. unfold upd. destruct (m =? n) eqn:Em; [|intros; eapply kernel_only_more; eauto].
      intros [= <-] _ X. discriminate X.
    - intros m o. cbn [f_op]. unfold upd. destruct (m =? n) eqn:Em; [|intros; eapply kernel_only_more; eauto].
      intros [= <-] X _. cbn in X. subst q'. specialize (R eq_refl). apply Nat.ltb_ge in El. lia. }
  destruct e as [b data|n q' id soff cnt b|n q' id soff cnt b|n q' id|q' k|n i|n r|q'|sv]; cbn [UringDiskModel.fstep] in H.
  - injection H as <- <-. split; [|intros ? ? ? []]. intros n o. apply (kernel_only_more _ _ _ _ K).
  - destruct (f_used s n) eqn:U; [discriminate|]. injection H as <- <-. split.
    + apply P; auto. intros ->. eapply Room; reflexivity.
    + intros ? ? ? [X|[]]. discriminate X.
  - destruct (f_used s n) eqn:U; [discriminate|]. injection H as <- <-. split.
    + apply P; auto. intros ->. eapply Room; reflexivity.
    + intros ? ? ? [X|[]]. discriminate X.
  - destruct (f_used s n) eqn:U; [discriminate|]. destruct osync; injection H as <- <-; (split; [|intros ? ? ? [X|[]]; discriminate X]).
    + intros m o. cbn [f_op]. unfold upd. destruct (m =? n) eqn:Em; [|intros; eapply kernel_only_more; eauto].
      intros [= <-] _ X. discriminate X.
    + apply P; auto. intros ->. eapply Room; reflexivity.
  - injection H as <- <-. split; [|intros ? ? ? []]. intros m o. cbn [f_op].
    destruct (is_in m _); [|intros; eapply kernel_only_more; eauto]. destruct (f_op s m); [|discriminate]. intros [= <-] _ X. discriminate X.
  - destruct (f_op s n) as [[q0 id [off len b|off len b|] [|mv si|ok]]|] eqn:Eo; try discriminate.
    + destruct (cur_cell _); [|discriminate]. destruct (_ && _ && _); [|discriminate]. injection H as <- <-. split; [|intros ? ? ? []].
      intros m o. cbn [f_op]. unfold upd. destruct (m =? n) eqn:Em; [|intros; eapply kernel_only_more; eauto]. intros [= <-] _ X. discriminate X.
    + destruct (nth_error _ _); [|discriminate]. destruct (_ && _ && _); [|discriminate]. injection H as <- <-. split; [|intros ? ? ? []].
      intros m o. cbn [f_op]. unfold upd. destruct (m =? n) eqn:Em; [|intros; eapply kernel_only_more; eauto]. intros [= <-] _ X. discriminate X.
  - destruct (f_op s n) as [[q0 id w [|mv si|ok]]|] eqn:Eo; try discriminate. destruct (possible w mv r); [|discriminate]. injection H as <- <-.
    split; [|intros ? ? ? []].
    intros m o. cbn [f_op]. unfold upd. destruct (Nat.eqb_spec m n) as [->|]; [|intros; eapply kernel_only_more; eauto].
    intros [= <-] _ X. cbn in X. unfold kernel_failed. apply in_or_app. right. left. destruct r; try discriminate X. reflexivity.
  - injection H as H. apply report_all_spec in H as (_ & _ & _ & _ & F & _ & T). cbn [f_op] in *. split.
    + intros n o Ho. apply F in Ho as [Ho _]. revert Ho. apply (kernel_only_more _ _ _ _ K).
    + intros n id data Hin. destruct (T _ Hin) as (n' & q0 & id' & w & ok & dd & E & _ & Eo). injection E as <- <- <- <- <-.
      eapply (kernel_only_more _ _ _ _ K); eauto.
  - injection H as <- <-. split; [|intros ? ? ? [X|[]]; discriminate X]. intros n o X. discriminate X.
Qed.

(** ** A slot for every request under way *)
Definition counted (q : nat) (s : fdev V) (tr : list (titem V)) : Prop :=
  forall n o, f_op s n = Some o -> f_ch o = q -> In n (under_way q tr).

Lemma counted_room : forall q s es tr, good s es -> counted q s tr -> length (f_sq s q) <= length (under_way q tr).
Proof.
  intros q s es tr G C. apply NoDup_incl_length; [apply G|]. intros n Hn. destruct (g_queued _ _ G _ _ Hn) as (id & w & E). exact (C _ _ E eq_refl).
Qed.

Lemma note_in : forall q (t : list (titem V)) l n, In n l -> ~ In TCrash t -> (forall q' id ok data, ~ In (TDone n q' id ok data) t) ->
  In n (fold_left (note q) t l).
Proof.
  intros q t. induction t as [|i t IH]; intros l n Hl Hc Hd; cbn [fold_left]; auto.
  apply IH; [|intros X; apply Hc; now right|intros q' id ok data X; eapply Hd; right; eauto].
  destruct i as [m q' id r|m q' id ok data|]; cbn [note].
  - destruct (q' =? q); [now right|auto].
  - destruct (q' =? q); auto. apply filter_In. split; auto. destruct (Nat.eqb_spec n m) as [->|]; auto. exfalso. eapply Hd. now left.
  - exfalso. apply Hc. now left.
Qed.

Lemma counted_step : forall q s es e s' t tr, good s es -> counted q s tr -> fstep s e = Some (s', t) -> counted q s' (tr ++ t).
Proof.
  intros q s es e s' t tr G C H n o Ho Hq. rewrite under_way_app.
  assert (P : forall m q' id w (r : req V), f_used s m = false -> f_op (push entries m q' id w s) n = Some o ->
    In n (fold_left (note q) [TIssue m q' id r] (under_way q tr))).
  { intros m q' id w r U X. cbn [fold_left note]. destruct (Nat.eq_dec n m) as [->|Hm].
    - assert (f_ch o = q') as <- by (unfold push in X; destruct (_ <? _); cbn [f_op] in X; rewrite upd_eq in X; injection X as <-; reflexivity).
      rewrite Hq, Nat.eqb_refl. now left.
    - assert (f_op s n = Some o) as X' by (unfold push in X; destruct (_ <? _); cbn [f_op] in X; rewrite upd_neq in X by auto; exact X).
      destruct (q' =? q); [right|]; eapply C; eauto. }
  destruct e as [b data|m q' id soff cnt b|m q' id soff cnt b|m q' id|q' k|m i|m r|q'|sv]; cbn [UringDiskModel.fstep] in H.
  - injection H as <- <-. exact (C _ _ Ho Hq).
  - destruct (f_used s m) eqn:U; [discriminate|]. injection H as <- <-. eapply P; eauto.
  - destruct (f_used s m) eqn:U; [discriminate|]. injection H as <- <-. eapply P; eauto.
  - destruct (f_used s m) eqn:U; [discriminate|]. destruct osync; injection H as <- <-; [|eapply P; eauto].
    cbn [f_op] in Ho. cbn [fold_left note]. unfold upd in Ho. destruct (Nat.eqb_spec n m) as [->|].
    + injection Ho as <-. cbn in Hq. subst q'. rewrite Nat.eqb_refl. now left.
    + destruct (q' =? q); [right|]; eapply C; eauto.
  - injection H as <- <-. cbn [f_op fold_left] in *. destruct (is_in n _); [|eauto]. destruct (f_op s n) as [o0|] eqn:E; [|discriminate].
    injection Ho as <-. eapply C; eauto.
  - destruct (f_op s m) as [[q0 id [off len b|off len b|] [|mv si|ok]]|] eqn:Eo; try discriminate.
    + destruct (cur_cell _); [|discriminate]. destruct (_ && _ && _); [|discriminate]. injection H as <- <-. cbn [f_op fold_left] in *.
      unfold upd in Ho. destruct (Nat.eqb_spec n m) as [->|]; [|eauto]. injection Ho as <-. exact (C _ _ Eo Hq).
    + destruct (nth_error _ _); [|discriminate]. destruct (_ && _ && _); [|discriminate]. injection H as <- <-. cbn [f_op fold_left] in *.
      unfold upd in Ho. destruct (Nat.eqb_spec n m) as [->|]; [|eauto]. injection Ho as <-. exact (C _ _ Eo Hq).
  - destruct (f_op s m) as [[q0 id w [|mv si|ok]]|] eqn:Eo; try discriminate. destruct (possible w mv r); [|discriminate]. injection H as <- <-.
    cbn [f_op fold_left] in *. unfold upd in Ho. destruct (Nat.eqb_spec n m) as [->|]; [|eauto]. injection Ho as <-. exact (C _ _ Eo Hq).
  - injection H as H. apply report_all_spec in H as (_ & _ & _ & _ & F & _ & T). cbn [f_op] in *. destruct (F _ _ Ho) as [Ho' Hl].
    apply note_in; [eapply C; eauto| |].
    + intros X. destruct (T _ X) as (? & ? & ? & ? & ? & ? & E & _). discriminate E.
    + intros q0 id ok data X. destruct (T _ X) as (? & ? & ? & ? & ? & ? & E & Hin & _). injection E as <- <- <- <- <-. contradiction.
  - injection H as <- <-. discriminate Ho.
Qed.

Lemma at_most_prefix : forall k q (t1 t2 : list (titem V)), at_most k q (t1 ++ t2) -> at_most k q t1.
Proof. intros k q t1 t2 H a b ->. apply (H a (b ++ t2)). now rewrite app_assoc. Qed.

Lemma ring_run : forall q es2 s s' es1 tr t, good s es1 -> kernel_only q s es1 -> counted q s tr ->
  frun s es2 = Some (s', t) -> at_most entries q (tr ++ t) ->
  forall n id data, In (TDone n q id false data) t -> kernel_failed n (es1 ++ es2).
Proof.
  intros q es2. induction es2 as [|e es2 IH]; intros s s' es1 tr t G K C H M n id data Hin; cbn [UringDiskModel.frun] in H.
  { injection H as <- <-. destruct Hin. }
  destruct (fstep s e) as [[s1 t1]|] eqn:E1; [|discriminate]. destruct (frun s1 es2) as [[s2 t2]|] eqn:E2; [|discriminate]. injection H as <- <-.
  rewrite app_assoc in M. pose proof (at_most_prefix _ _ _ _ M) as M1.
  destruct (kernel_only_step q s es1 e s1 t1 G K E1) as [K1 D1].
  { intros m id' r ->. specialize (M1 (tr ++ [TIssue m q id' r]) [] (eq_sym (app_nil_r _))). rewrite under_way_app in M1. cbn [fold_left note] in M1.
    rewrite Nat.eqb_refl in M1. cbn [length] in M1. pose proof (counted_room _ _ _ _ G C). lia. }
  replace (es1 ++ e :: es2) with ((es1 ++ [e]) ++ es2) by now rewrite <- app_assoc.
  apply in_app_iff in Hin as [Hin|Hin].
  - unfold kernel_failed. apply in_or_app. left. exact (D1 _ _ _ Hin).
  - eapply (IH s1 _ (es1 ++ [e]) (tr ++ t1)); eauto.
    + eapply good_step; eauto.
    + eapply counted_step; eauto.
Qed.

Lemma good_init : forall len contents, good (new_fdev len contents) [].
Proof. intros len contents. constructor; cbn; try discriminate; try (intros; contradiction). intros; constructor. Qed.

(** ** A slot for every request between two submissions *)
Lemma bursts_prefix : forall k q (e1 e2 : list (fevent V)), bursts k q (e1 ++ e2) -> bursts k q e1.
Proof. intros k q e1 e2 H a b ->. apply (H a (b ++ e2)). now rewrite app_assoc. Qed.

Lemma fits_step : forall q (s : fdev V) es e s' t, length (f_sq s q) <= entries -> length (f_sq s q) <= added q es -> fstep s e = Some (s', t) ->
  all_taken entries q [e] ->
  length (f_sq s' q) <= entries /\ length (f_sq s' q) <= added q (es ++ [e]).
Proof.
  intros q s es e s' t L A H T. rewrite added_snoc.
  assert (P : forall n q' id w, length (f_sq (push entries n q' id w s) q) <= entries /\
    length (f_sq (push entries n q' id w s) q) <= if q' =? q then S (added q es) else added q es).
  { intros n q' id w. unfold push. destruct (Nat.ltb_spec (length (f_sq s q')) entries); cbn [f_sq].
    - unfold upd. rewrite (Nat.eqb_sym q q'). destruct (Nat.eqb_spec q' q) as [->|]; [rewrite app_length; cbn [length]|]; lia.
    - destruct (q' =? q); lia. }
  destruct e as [b data|n q' id soff cnt b|n q' id soff cnt b|n q' id|q' k|n i|n r|q'|sv]; cbn [UringDiskModel.fstep] in H; cbn [count].
  - injection H as <- <-. auto.
  - destruct (f_used s n) eqn:U; [discriminate|]. injection H as <- <-. apply P.
  - destruct (f_used s n) eqn:U; [discriminate|]. injection H as <- <-. apply P.
  - destruct (f_used s n) eqn:U; [discriminate|]. destruct osync; injection H as <- <-; [|apply P]. cbn [f_sq]. destruct (q' =? q); lia.
  - injection H as <- <-. cbn [f_sq]. unfold upd. rewrite (Nat.eqb_sym q q'). destruct (Nat.eqb_spec q' q) as [->|]; [|lia].
    pose proof (T k (or_introl eq_refl)). rewrite skipn_all2 by lia. cbn. lia.
  - destruct (f_op s n) as [[q0 id [off len b|off len b|] [|mv si|ok]]|] eqn:Eo; try discriminate.
    + destruct (cur_cell _); [|discriminate]. destruct (_ && _ && _); [|discriminate]. injection H as <- <-. auto.
    + destruct (nth_error _ _); [|discriminate]. destruct (_ && _ && _); [|discriminate]. injection H as <- <-. auto.
  - destruct (f_op s n) as [[q0 id w [|mv si|ok]]|] eqn:Eo; try discriminate. destruct (possible w mv r); [|discriminate]. injection H as <- <-. auto.
  - injection H as H. apply report_all_spec in H as (_ & B & _). rewrite B. auto.
  - injection H as <- <-. cbn. lia.
Qed.

Lemma burst_run : forall q es2 (s : fdev V) s' es1 t, good s es1 -> kernel_only q s es1 ->
  length (f_sq s q) <= entries -> length (f_sq s q) <= added q es1 ->
  frun s es2 = Some (s', t) -> bursts entries q (es1 ++ es2) -> all_taken entries q es2 ->
  forall n id data, In (TDone n q id false data) t -> kernel_failed n (es1 ++ es2).
Proof.
  intros q es2. induction es2 as [|e es2 IH]; intros s s' es1 t G K L A H B T n id data Hin; cbn [UringDiskModel.frun] in H.
  { injection H as <- <-. destruct Hin. }
  destruct (fstep s e) as [[s1 t1]|] eqn:E1; [|discriminate]. destruct (frun s1 es2) as [[s2 t2]|] eqn:E2; [|discriminate]. injection H as <- <-.
  replace (es1 ++ e :: es2) with ((es1 ++ [e]) ++ es2) in * by now rewrite <- app_assoc.
  pose proof (bursts_prefix _ _ _ _ B) as B1.
  destruct (kernel_only_step q s es1 e s1 t1 G K E1) as [K1 D1].
  { intros m id' r ->. specialize (B1 (es1 ++ [e]) [] (eq_sym (app_nil_r _))). rewrite added_snoc in B1.
    assert (X : count q (added q es1) e = S (added q es1)); [|lia].
    clear - E1. destruct e as [b data|n q' id soff cnt b|n q' id soff cnt b|n q' id|q' k|n i|n r'|q'|sv]; cbn [UringDiskModel.fstep] in E1; try discriminate E1.
    - destruct (f_used s n); [discriminate|]. injection E1 as _ <- <- <- <-. cbn [count]. now rewrite Nat.eqb_refl.
    - destruct (f_used s n); [discriminate|]. injection E1 as _ <- <- <- <-. cbn [count]. now rewrite Nat.eqb_refl.
    - destruct (f_used s n); [discriminate|]. destruct osync; injection E1 as _ <- <- <- <-; cbn [count]; now rewrite Nat.eqb_refl.
    - destruct (f_op s n) as [[q0 id [off len b|off len b|] [|mv si|ok]]|]; try discriminate.
      + destruct (cur_cell _); [|discriminate]. destruct (_ && _ && _); discriminate.
      + destruct (nth_error _ _); [|discriminate]. destruct (_ && _ && _); discriminate.
    - destruct (f_op s n) as [[q0 id w [|mv si|ok]]|]; try discriminate. destruct (possible w mv r'); discriminate.
    - injection E1 as E1. apply report_all_spec in E1 as (_ & _ & _ & _ & _ & _ & T).
      destruct (T _ (or_introl eq_refl)) as (? & ? & ? & ? & ? & ? & X & _). discriminate X. }
  assert (T1 : all_taken entries q [e]) by (intros k [->|[]]; apply T; now left).
  destruct (fits_step _ _ _ _ _ _ L A E1 T1) as [L1 A1].
  apply in_app_iff in Hin as [Hin|Hin].
  - unfold kernel_failed. apply in_or_app. left. exact (D1 _ _ _ Hin).
  - eapply (IH s1 _ (es1 ++ [e])); eauto.
    + eapply good_step; eauto.
    + intros k Hk. apply T. now right.
Qed.

End Ring.
