(** Proofs about the remote stripe source (C33). *)
From Coq Require Import List Arith NArith ZArith Bool Lia Permutation ZifyBool ZifyNat ZifyN.
Import ListNotations.
From Verif Require Import Base BaseFacts MetadataModel RemoteModel RemotePoolModel.
Local Open Scope nat_scope.

(** Counting what a fetch did. *)
Definition dials (log : list act) : nat :=
  length (filter (fun a => match a with ADial _ => true | _ => false end) log).
Definition fetches (log : list act) : nat :=
  length (filter (fun a => match a with AFetch _ _ => true | _ => false end) log).
Definition slept (log : list act) : N :=
  fold_right N.add 0%N (map (fun a => match a with ASleep ms => ms | _ => 0%N end) log).

(** An action that decides the outcome, and the outcome. *)
Definition decides (w : world) (expected : geometry) (a : act) : option fres :=
  match a with
  | ADial (Some c) => if accepts w expected c then None else Some (RErr ErrGeometry)
  | AFetch _ (FData d) => Some (ROk d)
  | AFetch _ FOther => Some (RErr ErrOther)
  | AFetch _ FPanic => Some (RErr ErrPanic)
  | _ => None
  end.

Definition undecided w e (log : list act) : Prop := Forall (fun a => decides w e a = None) log.

Fixpoint sleep_bound (left attempt : nat) (delay : N) : N :=
  match left with
  | O => 0
  | S l => if 1 <? attempt then (delay + sleep_bound l (S attempt) (N.min (delay * 2) MAX_BACKOFF))%N
           else sleep_bound l (S attempt) delay
  end.

Lemma dials_app a b : dials (a ++ b) = dials a + dials b.
Proof. unfold dials. now rewrite filter_app, app_length. Qed.
Lemma fetches_app a b : fetches (a ++ b) = fetches a + fetches b.
Proof. unfold fetches. now rewrite filter_app, app_length. Qed.
Lemma slept_app a b : slept (a ++ b) = (slept a + slept b)%N.
Proof. unfold slept. induction a as [|x a IH]; cbn in *; [reflexivity|]. rewrite IH. lia. Qed.

Record attempt_ok (w : world) (e : geometry) (stripe left attempt client : nat) (delay : N) (t : nat)
  (log : list act) (r : fres) (c' t' : nat) : Prop := {
  ao_dials : dials log <= (if attempt =? 0 then left - 1 else left);
  ao_fetches : fetches log <= left;
  ao_slept : (slept log <= sleep_bound left attempt delay)%N;
  ao_conns : forall c o, In (AFetch c o) log -> c = client \/ accepts w e c = true;
  ao_client : c' = client \/ accepts w e c' = true;
  ao_data : forall d, r = ROk d -> exists t0, t <= t0 < t' /\ w_fetch w t0 c' stripe = FData d;
  ao_time : t <= t';
  ao_outcome :
    (exists pre a, log = pre ++ [a] /\ undecided w e pre /\ decides w e a = Some r) \/
    (undecided w e log /\ r = RErr ErrTransport /\ dials log = (if attempt =? 0 then left - 1 else left)) }.

Lemma attempts_ok : forall w e stripe left attempt client delay t log r c' t',
  0 < left \/ 0 < attempt ->
  attempts w e stripe left attempt client delay t = (log, r, c', t') ->
  attempt_ok w e stripe left attempt client delay t log r c' t'.
Proof.
  intros w e stripe. induction left as [|left IH]; intros attempt client delay t log r c' t' Hpos H.
  { cbn in H. injection H as <- <- <- <-. split.
    - cbn. lia.
    - cbn. lia.
    - cbn. lia.
    - intros c o [].
    - auto.
    - intros d Hd. discriminate.
    - lia.
    - right. split; [constructor|]. split; [reflexivity|]. destruct attempt; reflexivity. }
  cbn [attempts] in H.
  set (fetch := fun log client delay t =>
      match w_fetch w t client stripe with
      | FData d => (log ++ [AFetch client (FData d)], ROk d, client, S t)
      | FOther => (log ++ [AFetch client FOther], RErr ErrOther, client, S t)
      | FPanic => (log ++ [AFetch client FPanic], RErr ErrPanic, client, S t)
      | FTransport =>
        let '(log', r, c', t') := attempts w e stripe left (S attempt) client delay (S t) in
        (log ++ AFetch client FTransport :: log', r, c', t')
      end) in H.
  (* the fetch after a prefix [pl] of harmless actions *)
  assert (Fk : forall pl cl dl t1,
    fetch pl cl dl t1 = (log, r, c', t') ->
    undecided w e pl -> dials pl = (if attempt =? 0 then 0 else 1) -> fetches pl = 0 -> t <= t1 ->
    (forall c o, In (AFetch c o) pl -> False) ->
    (cl = client \/ accepts w e cl = true) ->
    (slept pl + sleep_bound left (S attempt) dl <= sleep_bound (S left) attempt delay)%N ->
    attempt_ok w e stripe (S left) attempt client delay t log r c' t').
  { intros pl cl dl t1 E U D F0 Ht Np Cl Sl. unfold fetch in E.
    assert (Stop : forall o, (forall d, o = FData d -> w_fetch w t1 cl stripe = FData d) ->
      decides w e (AFetch cl o) = Some r -> log = pl ++ [AFetch cl o] -> c' = cl -> t' = S t1 ->
      attempt_ok w e stripe (S left) attempt client delay t log r c' t').
    { intros o Ho Hd -> -> ->. split.
      - rewrite dials_app, D. cbn. destruct (attempt =? 0); lia.
      - rewrite fetches_app, F0. cbn. lia.
      - rewrite slept_app. cbn [slept map fold_right]. lia.
      - intros c o' Hin. apply in_app_or in Hin as [Hin|[Hin|[]]]; [exfalso; eauto|]. injection Hin as <- <-. exact Cl.
      - exact Cl.
      - intros d ->. exists t1. split; [lia|]. destruct o; try discriminate. cbn in Hd. injection Hd as ->. auto.
      - lia.
      - left. exists pl, (AFetch cl o). auto. }
    destruct (w_fetch w t1 cl stripe) as [d| | |] eqn:Ef.
    - injection E as <- <- <- <-. eapply (Stop (FData d)); eauto.
    - destruct (attempts w e stripe left (S attempt) cl dl (S t1)) as [[[log1 r1] c1] t2] eqn:Ea.
      injection E as <- <- <- <-. apply IH in Ea; [|right; lia].
      destruct Ea as [A1 A2 A3 A4 A5 A6 A7 A8]. cbn [Nat.eqb] in *. split.
      + rewrite dials_app, D. change (dials (AFetch cl FTransport :: log1)) with (dials log1).
        destruct (attempt =? 0); lia.
      + rewrite fetches_app, F0. change (fetches (AFetch cl FTransport :: log1)) with (S (fetches log1)). lia.
      + rewrite slept_app. change (slept (AFetch cl FTransport :: log1)) with (0 + slept log1)%N. lia.
      + intros c o Hin. apply in_app_or in Hin as [Hin|[Hin|Hin]]; [exfalso; eauto|injection Hin as <- <-; exact Cl|].
        destruct (A4 c o Hin) as [->|X]; auto.
      + destruct A5 as [->|X]; auto.
      + intros d ->. destruct (A6 d eq_refl) as (t0 & B & C). exists t0. split; [lia|exact C].
      + lia.
      + destruct A8 as [(pre & a & -> & Up & Hd)|(Ul & -> & Dl)].
        * left. exists (pl ++ AFetch cl FTransport :: pre), a. split; [now rewrite <- app_assoc|]. split; auto.
          apply Forall_app; split; [assumption|constructor; [reflexivity|assumption]].
        * right. split; [apply Forall_app; split; [assumption|constructor; [reflexivity|assumption]]|]. split; auto.
          rewrite dials_app, D. change (dials (AFetch cl FTransport :: log1)) with (dials log1). rewrite Dl.
          destruct (attempt =? 0); cbn; lia.
    - injection E as <- <- <- <-. apply (Stop FOther); try reflexivity; intros; discriminate.
    - injection E as <- <- <- <-. apply (Stop FPanic); try reflexivity; intros; discriminate. }
  destruct attempt as [|a].
  { apply (Fk [] client delay t H); auto; try lia; try (constructor); try (intros c o []). cbn. lia. }
  clear Hpos.
  set (attempt := S a) in *. set (sleep := if 1 <? attempt then [ASleep delay] else []) in *.
  set (delay' := if 1 <? attempt then N.min (delay * 2) MAX_BACKOFF else delay) in *.
  assert (Us : undecided w e sleep) by (unfold sleep; destruct (1 <? attempt); repeat constructor).
  assert (Ds : dials sleep = 0 /\ fetches sleep = 0) by (unfold sleep; destruct (1 <? attempt); split; reflexivity).
  assert (Ss : (slept sleep + sleep_bound left (S attempt) delay' = sleep_bound (S left) attempt delay)%N).
  { unfold sleep, delay'. cbn [sleep_bound]. destruct (1 <? attempt); cbn; lia. }
  assert (Ns : forall c o, In (AFetch c o) sleep -> False).
  { intros c o Hin. unfold sleep in Hin. destruct (1 <? attempt); [destruct Hin as [Hin|[]]; discriminate|destruct Hin]. }
  destruct Ds as [Ds Fs].
  destruct (w_dial w t) as [c|] eqn:Ed.
  - destruct (accepts w e c) eqn:Ec.
    + apply (Fk (sleep ++ [ADial (Some c)]) c delay' (S t) H); auto.
      * apply Forall_app; split; [assumption|constructor; [cbn; now rewrite Ec|constructor]].
      * rewrite dials_app, Ds. reflexivity.
      * rewrite fetches_app, Fs. reflexivity.
      * intros c0 o Hin. apply in_app_or in Hin as [Hin|[Hin|[]]]; [eauto|discriminate].
      * rewrite slept_app. cbn [slept map fold_right]. lia.
    + injection H as <- <- <- <-. split.
      * rewrite dials_app, Ds. cbn. lia.
      * rewrite fetches_app, Fs. cbn. lia.
      * rewrite slept_app. cbn [slept map fold_right]. lia.
      * intros c0 o Hin. apply in_app_or in Hin as [Hin|[Hin|[]]]; [exfalso; eauto|discriminate].
      * auto.
      * intros d Hd. discriminate.
      * lia.
      * left. exists sleep, (ADial (Some c)). split; auto. split; auto. cbn. now rewrite Ec.
  - destruct (attempts w e stripe left (S attempt) client delay' (S t)) as [[[log1 r1] c1] t2] eqn:Ea.
    injection H as <- <- <- <-. apply IH in Ea; [|right; lia].
    destruct Ea as [A1 A2 A3 A4 A5 A6 A7 A8]. cbn [Nat.eqb] in *. split.
    + rewrite dials_app, Ds. change (dials (ADial None :: log1)) with (S (dials log1)). change (attempt =? 0) with false. cbv iota. lia.
    + rewrite fetches_app, Fs. change (fetches (ADial None :: log1)) with (fetches log1). lia.
    + rewrite slept_app. change (slept (ADial None :: log1)) with (0 + slept log1)%N. lia.
    + intros c o Hin. apply in_app_or in Hin as [Hin|[Hin|Hin]]; [exfalso; eauto|discriminate|]. eauto.
    + auto.
    + intros d ->. destruct (A6 d eq_refl) as (t0 & B & C). exists t0. split; [lia|exact C].
    + lia.
    + destruct A8 as [(pre & x & -> & Up & Hd)|(Ul & -> & Dl)].
      * left. exists (sleep ++ ADial None :: pre), x. split; [now rewrite <- app_assoc|]. split; auto.
        apply Forall_app; split; [assumption|constructor; [reflexivity|assumption]].
      * right. split; [apply Forall_app; split; [assumption|constructor; [reflexivity|assumption]]|]. split; auto.
        rewrite dials_app, Ds. change (dials (ADial None :: log1)) with (S (dials log1)). rewrite Dl. reflexivity.
Qed.

(** ** The pool *)

(** Requests not yet answered. *)
Definition in_workers (ws : list (nat * option nat)) : list nat :=
  flat_map (fun x => match snd x with Some i => [i] | None => [] end) ws.
Definition outstanding (s : pool) : list nat :=
  p_queue s ++ in_workers (p_workers s) ++ map fst (p_results s).

Definition pinv (s : pool) : Prop :=
  NoDup (map fst (p_pending s)) /\ Permutation (outstanding s) (map fst (p_pending s)).

Lemma in_workers_set : forall k ws c o c' o', nth_error ws k = Some (c, o) ->
  Permutation (match o with Some i => [i] | None => [] end ++ in_workers (set_nth k (c', o') ws))
              (match o' with Some i => [i] | None => [] end ++ in_workers ws).
Proof.
  induction k as [|k IH]; intros [|[cx ox] ws] c o c' o' H; cbn in H; try discriminate.
  - injection H as -> ->. cbn. destruct o, o'; cbn; auto using perm_swap.
  - cbn [set_nth in_workers flat_map snd]. fold (in_workers (set_nth k (c', o') ws)). fold (in_workers ws).
    specialize (IH ws c o c' o' H).
    set (A := match o with Some i => [i] | None => [] end) in *.
    set (B := match o' with Some i => [i] | None => [] end) in *.
    set (X := match ox with Some i => [i] | None => [] end) in *.
    rewrite !app_assoc. rewrite (Permutation_app_comm A X), (Permutation_app_comm B X), <- !app_assoc.
    now apply Permutation_app_head.
Qed.

Lemma assoc_find_in : forall k l, In k (map fst l) -> exists v, assoc_find k l = Some v /\ In (k, v) l.
Proof.
  induction l as [|[a b] l IH]; cbn; [intros []|]. intros [<-|H].
  - rewrite Nat.eqb_refl. eauto.
  - destruct (a =? k) eqn:E; [apply Nat.eqb_eq in E; subst; eauto|]. destruct (IH H) as (v & A & B). eauto.
Qed.
Lemma assoc_remove_keys : forall k l, map fst (assoc_remove k l) = filter (fun x => negb (x =? k)) (map fst l).
Proof.
  intros k l. unfold assoc_remove. induction l as [|[a b] l IH]; cbn; auto. destruct (a =? k); cbn; now rewrite IH.
Qed.
Lemma filter_id : forall k l, ~ In k l -> filter (fun x => negb (x =? k)) l = l.
Proof.
  intros k l H. induction l as [|a l IH]; cbn; auto. destruct (a =? k) eqn:E.
  - apply Nat.eqb_eq in E. subst. exfalso. apply H. now left.
  - cbn. f_equal. apply IH. intros X. apply H. now right.
Qed.
Lemma remove_perm : forall k l, NoDup l -> In k l -> Permutation l (k :: filter (fun x => negb (x =? k)) l).
Proof.
  intros k l H. induction H as [|a l Ha Hl IH]; intros Hin; [destruct Hin|]. cbn.
  destruct (a =? k) eqn:E; cbn.
  - apply Nat.eqb_eq in E. subst. rewrite filter_id by auto. auto.
  - destruct Hin as [->|Hin]; [rewrite Nat.eqb_refl in E; discriminate|].
    rewrite perm_swap. constructor. auto.
Qed.

(** What a poll returns. *)
Lemma poll_ok : forall results pending cs p,
  pool_poll results pending = (cs, p) ->
  NoDup (map fst pending) -> NoDup (map fst results) -> incl (map fst results) (map fst pending) ->
  map fst cs = map fst results /\ NoDup (map fst p) /\
  Permutation (map fst pending) (map fst results ++ map fst p) /\
  (forall i len, In (i, len) p -> In (i, len) pending) /\
  forall i o, In (i, o) cs -> exists r len, In (i, r) results /\ In (i, len) pending /\
    o = match r with ROk d => deliver d len | RErr _ => None end.
Proof.
  induction results as [|[i r] results IH]; intros pending cs p H Np Nr Inc.
  - cbn in H. injection H as <- <-. cbn. repeat split; auto. intros i o [].
  - cbn [pool_poll] in H.
    destruct (assoc_find_in i pending) as (len & Ef & Hin); [apply Inc; now left|]. rewrite Ef in H.
    destruct (pool_poll results (assoc_remove i pending)) as [cs1 p1] eqn:Ep. injection H as <- <-.
    cbn [map fst] in Nr. inversion Nr as [|? ? Ni Nr']. subst.
    assert (Kr : map fst (assoc_remove i pending) = filter (fun x => negb (x =? i)) (map fst pending))
      by apply assoc_remove_keys.
    destruct (IH _ _ _ Ep) as (A & B & C & C2 & D).
    + rewrite Kr. now apply NoDup_filter.
    + exact Nr'.
    + intros x Hx. rewrite Kr. apply filter_In. split; [apply Inc; now right|].
      apply negb_true_iff, Nat.eqb_neq. intros ->. contradiction.
    + cbn [map fst]. split; [now rewrite A|]. split; [exact B|]. split; [|split].
      * rewrite (remove_perm i (map fst pending) Np) by (apply in_map_iff; exists (i, len); auto).
        cbn. constructor. rewrite <- Kr. exact C.
      * intros j l Hj. apply C2 in Hj. apply filter_In in Hj. tauto.
      * intros j o [Hj|Hj].
        -- injection Hj as <- <-. exists r, len. split; [now left|]. split; auto.
        -- destruct (D j o Hj) as (r' & len' & X & Y & Z). exists r', len'. split; [now right|]. split; auto.
           apply filter_In in Y. tauto.
Qed.

(** The contract: a stripe is not requested again while a request for it waits. *)
Definition allowed (s : pool) (e : pevent) : Prop :=
  match e with PRequest i _ => ~ In i (map fst (p_pending s)) | _ => True end.
Fixpoint respects (w : world) (g : geometry) (s : pool) (es : list pevent) : Prop :=
  match es with
  | [] => True
  | e :: es' => allowed s e /\
      match pool_step w g s e with None => True | Some (s1, _) => respects w g s1 es' end
  end.
Definition requested (es : list pevent) : list nat :=
  flat_map (fun e => match e with PRequest i _ => [i] | _ => [] end) es.

Lemma step_inv : forall w g s e s' cs, pinv s -> allowed s e -> pool_step w g s e = Some (s', cs) ->
  pinv s' /\ Permutation (map fst cs ++ outstanding s') (requested [e] ++ outstanding s).
Proof.
  intros w g s e s' cs [N P] Al H. destruct e as [i len|k|k|]; cbn [pool_step] in H.
  - injection H as <- <-. cbn in Al. unfold pinv, outstanding. cbn [p_queue p_workers p_results p_pending map fst].
    rewrite assoc_remove_keys, filter_id by auto. rewrite <- app_assoc. unfold outstanding in P. split; [split|].
    + constructor; auto.
    + cbn [app]. rewrite <- Permutation_middle. constructor. exact P.
    + cbn [requested flat_map app]. symmetry. apply Permutation_middle.
  - destruct (nth_error (p_workers s) k) as [[c [j|]]|] eqn:Ek; try discriminate.
    destruct (p_queue s) as [|i q] eqn:Eq; [discriminate|]. injection H as <- <-.
    pose proof (in_workers_set k (p_workers s) c None c (Some i) Ek) as W. cbn [app] in W.
    assert (O : Permutation (outstanding (mk_pool q (set_nth k (c, Some i) (p_workers s)) (p_results s) (p_pending s) (p_time s)))
                            (outstanding s)).
    { unfold outstanding. cbn [p_queue p_workers p_results]. rewrite Eq, W. cbn [app]. symmetry. apply Permutation_middle. }
    split; [split; auto; now rewrite O|]. cbn [map app requested flat_map]. exact O.
  - destruct (nth_error (p_workers s) k) as [[c [i|]]|] eqn:Ek; try discriminate.
    destruct (fetch_with_reconnect w g i c (p_time s)) as [[[log r] c'] t'] eqn:Ef. injection H as <- <-.
    pose proof (in_workers_set k (p_workers s) c (Some i) c' None Ek) as W. cbn [app] in W.
    assert (O : Permutation (outstanding (mk_pool (p_queue s) (set_nth k (c', None) (p_workers s))
                   (p_results s ++ [(i, r)]) (p_pending s) t')) (outstanding s)).
    { unfold outstanding. cbn [p_queue p_workers p_results]. apply Permutation_app_head. rewrite map_app.
      cbn [map fst]. rewrite <- W. rewrite app_assoc. rewrite Permutation_app_comm. reflexivity. }
    split; [split; auto; now rewrite O|]. cbn [map app requested flat_map]. exact O.
  - destruct (pool_poll (p_results s) (p_pending s)) as [c p] eqn:Ep. injection H as <- <-.
    assert (Nr : NoDup (map fst (p_results s)) /\ incl (map fst (p_results s)) (map fst (p_pending s))).
    { pose proof (Permutation_NoDup (Permutation_sym P) N) as NN. unfold outstanding in NN. split.
      - clear - NN. rewrite app_assoc in NN. induction (p_queue s ++ in_workers (p_workers s)) as [|x l IH]; auto.
        cbn in NN. inversion NN; auto.
      - intros x Hx. apply (Permutation_in x P). unfold outstanding. apply in_or_app. right. apply in_or_app. now right. }
    destruct Nr as [Nr Inc]. destruct (poll_ok _ _ _ _ Ep N Nr Inc) as (A & B & C & _ & D).
    unfold pinv, outstanding in *. cbn [p_queue p_workers p_results p_pending map] in *.
    rewrite app_nil_r. split; [split; auto|].
    + apply (Permutation_app_inv_l (map fst (p_results s))). rewrite <- C, <- P.
      rewrite Permutation_app_comm, <- app_assoc. reflexivity.
    + rewrite A. cbn [requested flat_map app]. rewrite Permutation_app_comm, <- app_assoc. reflexivity.
Qed.

Lemma run_inv : forall w g es s s' cs, pinv s -> respects w g s es -> pool_run w g s es = Some (s', cs) ->
  pinv s' /\ Permutation (map fst cs ++ outstanding s') (requested es ++ outstanding s).
Proof.
  intros w g es. induction es as [|e es IH]; intros s s' cs I R H.
  - cbn in H. injection H as <- <-. split; auto.
  - cbn [pool_run respects] in *. destruct R as [Al R].
    destruct (pool_step w g s e) as [[s1 c1]|] eqn:E; [|discriminate].
    destruct (pool_run w g s1 es) as [[s2 c2]|] eqn:E2; [|discriminate]. injection H as <- <-.
    destruct (step_inv _ _ _ _ _ _ I Al E) as [I1 P1]. destruct (IH _ _ _ I1 R E2) as [I2 P2]. split; auto.
    rewrite map_app, <- app_assoc, P2. 
    replace (requested (e :: es)) with (requested [e] ++ requested es) by (unfold requested; cbn; now rewrite app_nil_r).
    rewrite (Permutation_app_comm (requested [e])), <- app_assoc, <- P1.
    rewrite !app_assoc. apply Permutation_app_tail, Permutation_app_comm.
Qed.

(** Where data comes from. *)
Definition conns_ok (w : world) (g : geometry) (s : pool) : Prop :=
  forall c o, In (c, o) (p_workers s) -> accepts w g c = true.
Definition from_good (w : world) (g : geometry) (i : nat) (d : list byte) : Prop :=
  exists c t, accepts w g c = true /\ w_fetch w t c i = FData d.
Definition results_ok (w : world) (g : geometry) (s : pool) : Prop :=
  forall i d, In (i, ROk d) (p_results s) -> from_good w g i d.

Lemma in_set_nth : forall A k (x y : A) l, In y (set_nth k x l) -> y = x \/ In y l.
Proof.
  induction k as [|k IH]; intros x y [|a l]; cbn; intros H; auto.
  - destruct H; auto.
  - destruct H as [->|H]; auto. destruct (IH x y l H); auto.
Qed.

Lemma step_conns : forall w g s e s' cs, conns_ok w g s -> results_ok w g s ->
  pool_step w g s e = Some (s', cs) -> conns_ok w g s' /\ results_ok w g s'.
Proof.
  intros w g s e s' cs C R H. destruct e as [i len|k|k|]; cbn [pool_step] in H.
  - injection H as <- <-. auto.
  - destruct (nth_error (p_workers s) k) as [[c [j|]]|] eqn:Ek; try discriminate.
    destruct (p_queue s) as [|i q]; [discriminate|]. injection H as <- <-. split; auto.
    intros c0 o Hin. cbn in Hin. apply in_set_nth in Hin as [Hin|Hin]; [|eauto].
    injection Hin as -> _. apply (C c None). eapply nth_error_In; eauto.
  - destruct (nth_error (p_workers s) k) as [[c [i|]]|] eqn:Ek; try discriminate.
    destruct (fetch_with_reconnect w g i c (p_time s)) as [[[log r] c'] t'] eqn:Ef. injection H as <- <-.
    apply attempts_ok in Ef; [|lia]. destruct Ef as [_ _ _ _ F5 F6 _ _].
    assert (Cc : accepts w g c = true) by (apply (C c (Some i)); eapply nth_error_In; eauto).
    assert (Cc' : accepts w g c' = true) by (destruct F5 as [->|X]; auto).
    split.
    + intros c0 o Hin. cbn in Hin. apply in_set_nth in Hin as [Hin|Hin]; [|eauto]. injection Hin as -> _. exact Cc'.
    + intros j d Hin. cbn in Hin. apply in_app_or in Hin as [Hin|[Hin|[]]]; [apply R; auto|].
      injection Hin as -> ->. destruct (F6 d eq_refl) as (t0 & _ & Hf). exists c', t0. auto.
  - destruct (pool_poll (p_results s) (p_pending s)) as [c p] eqn:Ep. injection H as <- <-. split; auto.
    intros i d [].
Qed.

Lemma poll_contents : forall results pending cs p, pool_poll results pending = (cs, p) ->
  forall i b, In (i, Some b) cs -> exists d len, In (i, ROk d) results /\ In (i, len) pending /\ deliver d len = Some b.
Proof.
  induction results as [|[i r] results IH]; intros pending cs p H j b Hin.
  - cbn in H. injection H as <- <-. destruct Hin.
  - cbn [pool_poll] in H. destruct (assoc_find i pending) as [len|] eqn:Ef.
    + destruct (pool_poll results (assoc_remove i pending)) as [cs1 p1] eqn:Ep. injection H as <- <-.
      destruct Hin as [Hin|Hin].
      * injection Hin as -> Hr. destruct r as [d|]; [|discriminate]. exists d, len. split; [now left|]. split; auto.
        clear - Ef. induction pending as [|[a v] l IH]; cbn in *; [discriminate|].
        destruct (a =? j) eqn:E; [|right; auto]. apply Nat.eqb_eq in E. injection Ef as ->. subst. now left.
      * destruct (IH _ _ _ Ep _ _ Hin) as (d & len' & A & B & C). exists d, len'. split; [now right|]. split; auto.
        unfold assoc_remove in B. apply filter_In in B. tauto.
    + destruct (IH _ _ _ H _ _ Hin) as (d & len' & A & B & C). exists d, len'. split; [now right|]. auto.
Qed.

(** Sizes of the buffers handed in. *)
Definition lens (L : nat) (es : list pevent) : Prop := forall i len, In (PRequest i len) es -> len = L.

Lemma run_contents : forall w g L es s s' cs, conns_ok w g s -> results_ok w g s ->
  (forall i len, In (i, len) (p_pending s) -> len = L) -> lens L es ->
  pool_run w g s es = Some (s', cs) ->
  forall i b, In (i, Some b) cs -> exists d, from_good w g i d /\ b = d ++ repeat 0%N (L - length d) /\ length d <= L.
Proof.
  intros w g L es. induction es as [|e es IH]; intros s s' cs C R Hp Hl H i b Hin.
  - cbn in H. injection H as <- <-. destruct Hin.
  - cbn [pool_run] in H. destruct (pool_step w g s e) as [[s1 c1]|] eqn:E; [|discriminate].
    destruct (pool_run w g s1 es) as [[s2 c2]|] eqn:E2; [|discriminate]. injection H as <- <-.
    destruct (step_conns _ _ _ _ _ _ C R E) as [C1 R1].
    assert (Hl' : lens L es) by (intros j len X; apply (Hl j len); now right).
    assert (X : (forall j len, In (j, len) (p_pending s1) -> len = L) /\
                (In (i, Some b) c1 -> exists d, from_good w g i d /\ b = d ++ repeat 0%N (L - length d) /\ length d <= L)).
    { destruct e as [j len|k|k|]; cbn [pool_step] in E.
      - injection E as <- <-. split; [|intros []]. intros j' len' [Y|Y].
        + injection Y as <- <-. apply (Hl j len). now left.
        + unfold assoc_remove in Y. apply filter_In in Y. destruct Y. eauto.
      - destruct (nth_error (p_workers s) k) as [[c [j|]]|]; try discriminate.
        destruct (p_queue s); [discriminate|]. injection E as <- <-. split; [exact Hp|intros []].
      - destruct (nth_error (p_workers s) k) as [[c [j|]]|]; try discriminate.
        destruct (fetch_with_reconnect w g j c (p_time s)) as [[[? ?] ?] ?]. injection E as <- <-. split; [exact Hp|intros []].
      - destruct (pool_poll (p_results s) (p_pending s)) as [cs0 p] eqn:Ep. injection E as <- <-. split.
        + cbn [p_pending]. clear - Ep Hp. revert cs0 p Ep. generalize (p_pending s) as pe, (p_results s) as rs, Hp. clear Hp.
          intros pe rs. revert pe. induction rs as [|[a r] rs IH]; intros pe Hp cs0 p Ep j len Hj; cbn [pool_poll] in Ep.
          * injection Ep as <- <-. eauto.
          * destruct (assoc_find a pe).
            -- destruct (pool_poll rs (assoc_remove a pe)) as [c1 p1] eqn:Ep1. injection Ep as <- <-.
               refine (IH _ _ _ _ Ep1 j len Hj). intros j' l' Y. unfold assoc_remove in Y. apply filter_In in Y. destruct Y. eauto.
            -- exact (IH _ Hp _ _ Ep j len Hj).
        + intros Y. destruct (poll_contents _ _ _ _ Ep _ _ Y) as (d & len & A & B & D).
          apply Hp in B. subst len. exists d. split; [apply R; exact A|].
          unfold deliver in D. destruct (L <? length d) eqn:El; [discriminate|]. apply Nat.ltb_ge in El.
          injection D as <-. split; [reflexivity|exact El]. }
    destruct X as [Hp1 Hc]. apply in_app_or in Hin as [Hin|Hin]; [auto|]. exact (IH _ _ _ C1 R1 Hp1 Hl' E2 _ _ Hin).
Qed.

(** Progress: while a request waits, something other than a new request can happen,
    and every such step brings an answer closer. *)
Definition left_to_do (s : pool) : nat :=
  3 * length (p_queue s) + 2 * length (in_workers (p_workers s)) + length (p_results s).

Lemma some_idle : forall ws, ws <> [] -> in_workers ws = [] -> exists c, nth_error ws 0 = Some (c, None).
Proof. intros [|[c [i|]] ws] H E; cbn in *; try congruence. eauto. Qed.
Lemma some_busy : forall ws i l, in_workers ws = i :: l -> exists k c, nth_error ws k = Some (c, Some i).
Proof.
  induction ws as [|[c [j|]] ws IH]; intros i l E; cbn in E; try discriminate.
  - injection E as -> _. exists 0, c. reflexivity.
  - destruct (IH _ _ E) as (k & c0 & H). exists (S k), c0. exact H.
Qed.

Lemma progress : forall w g s, pinv s -> p_workers s <> [] -> p_pending s <> [] ->
  exists e s' cs, (forall i len, e <> PRequest i len) /\ pool_step w g s e = Some (s', cs) /\ left_to_do s' < left_to_do s.
Proof.
  intros w g s [N P] Hw Hp.
  destruct (p_results s) as [|[i r] rs] eqn:Er.
  - destruct (in_workers (p_workers s)) as [|i l] eqn:Ew.
    + destruct (p_queue s) as [|i q] eqn:Eq.
      { unfold outstanding in P. rewrite Eq, Ew, Er in P. cbn in P. apply Permutation_nil in P.
        destruct (p_pending s); [congruence|discriminate]. }
      destruct (some_idle _ Hw Ew) as (c & E0).
      eexists (PTake 0), _, _. split; [discriminate|]. split; [cbn [pool_step]; rewrite E0, Eq; reflexivity|].
      pose proof (in_workers_set 0 (p_workers s) c None c (Some i) E0) as W. cbn [app] in W.
      apply Permutation_length in W. unfold left_to_do. cbn [p_queue p_workers p_results].
      rewrite W, Ew, Eq. cbn [length]. lia.
    + destruct (some_busy _ _ _ Ew) as (k & c & Ek).
      destruct (fetch_with_reconnect w g i c (p_time s)) as [[[log r] c'] t'] eqn:Ef.
      eexists (PFinish k), _, _. split; [discriminate|]. split; [cbn [pool_step]; rewrite Ek, Ef; reflexivity|].
      pose proof (in_workers_set k (p_workers s) c (Some i) c' None Ek) as W. cbn [app] in W.
      apply Permutation_length in W. cbn [length] in W. unfold left_to_do. cbn [p_queue p_workers p_results].
      rewrite app_length. cbn [length]. lia.
  - destruct (pool_poll (p_results s) (p_pending s)) as [cs p] eqn:Ep.
    eexists PPoll, _, _. split; [discriminate|]. split; [cbn [pool_step]; rewrite Ep; reflexivity|].
    unfold left_to_do. cbn [p_queue p_workers p_results]. rewrite Er. cbn [length]. lia.
Qed.

Lemma no_increase : forall w g s e s' cs, (forall i len, e <> PRequest i len) -> e <> PPoll ->
  pool_step w g s e = Some (s', cs) -> left_to_do s' < left_to_do s.
Proof.
  intros w g s e s' cs H Hn E. destruct e as [i len|k|k|]; [exfalso; eapply H; reflexivity| | |congruence]; cbn [pool_step] in E.
  - destruct (nth_error (p_workers s) k) as [[c [j|]]|] eqn:Ek; try discriminate.
    destruct (p_queue s) as [|i q] eqn:Eq; [discriminate|]. injection E as <- <-.
    pose proof (in_workers_set k (p_workers s) c None c (Some i) Ek) as W. cbn [app] in W.
    apply Permutation_length in W. unfold left_to_do. cbn [p_queue p_workers p_results].
    rewrite W, Eq. cbn [length]. lia.
  - destruct (nth_error (p_workers s) k) as [[c [i|]]|] eqn:Ek; try discriminate.
    destruct (fetch_with_reconnect w g i c (p_time s)) as [[[log r] c'] t'] eqn:Ef. injection E as <- <-.
    pose proof (in_workers_set k (p_workers s) c (Some i) c' None Ek) as W. cbn [app] in W.
    apply Permutation_length in W. cbn [length] in W. unfold left_to_do. cbn [p_queue p_workers p_results].
    rewrite app_length. cbn [length]. lia.
Qed.
