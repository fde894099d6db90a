(** C63: a synchronous call reports the fate of its own request. *)
From Coq Require Import List Arith NArith Bool Permutation Lia ZifyBool ZifyNat ZifyN.
From Verif Require Import Base BaseFacts WaitModel WaitSpec.
Import ListNotations.

Section WaitProofs.
Context {K R : Type}.
Variable keqb : K -> K -> bool.
Hypothesis keqb_eq : forall a b, keqb a b = true <-> a = b.
Notation provider := (@provider K R).
Notation turn := (@turn R).
Implicit Types (p : provider) (r : R) (k : K).

Definition ids (p : provider) : list nat := map fst (p_flight p) ++ map (fun e => fst (fst e)) (p_ready p).

Lemma finish_cases : forall o r (p : provider),
  (exists k l1 l2, p_flight p = l1 ++ (o, k) :: l2 /\ ~ In o (map fst l1) /\
     finish o r p = mk_provider (p_next p) (filter (fun e => negb (fst e =? o)) (p_flight p)) (p_ready p ++ [(o, k, r)])) \/
  (~ In o (map fst (p_flight p)) /\ finish o r p = p).
Proof.
  intros o r p. unfold finish. destruct (find (fun e => fst e =? o) (p_flight p)) as [[o' k]|] eqn:E.
  - left. revert E. generalize (p_flight p) at 1 2. induction l as [|[o1 k1] l IH]; cbn [find fst]; [discriminate|].
    destruct (Nat.eqb_spec o1 o) as [->|N].
    + intros E. injection E as <- <-. exists k1, [], l. now repeat split.
    + intros E. destruct (IH E) as (k' & l1 & l2 & -> & Hn & Hf). exists k', ((o1, k1) :: l1), l2.
      split; [reflexivity|]. split; [|exact Hf]. intros [H|H]; [now apply N|now apply Hn].
  - right. split; [|reflexivity]. intros H. apply in_map_iff in H as ([o' k] & <- & H).
    apply (find_none _ _ E) in H. cbn [fst] in H. rewrite Nat.eqb_refl in H. discriminate.
Qed.

Lemma filter_out : forall (o : nat) (l : list (nat * K)), ~ In o (map fst l) -> filter (fun e => negb (fst e =? o)) l = l.
Proof.
  induction l as [|[a b] l IH]; cbn [filter map fst In]; intros H; [reflexivity|].
  destruct (Nat.eqb_spec a o) as [->|N]; cbn [negb]; [exfalso; auto|]. f_equal. apply IH. auto.
Qed.

(** In a coherent provider a request that ends just moves. *)
Lemma finish_moves : forall o r (p : provider), coherent p ->
  (exists k l1 l2, p_flight p = l1 ++ (o, k) :: l2 /\
     finish o r p = mk_provider (p_next p) (l1 ++ l2) (p_ready p ++ [(o, k, r)])) \/
  (~ In o (map fst (p_flight p)) /\ finish o r p = p).
Proof.
  intros o r p [Hn _]. destruct (finish_cases o r p) as [(k & l1 & l2 & E & N & F)|H]; [left|now right].
  exists k, l1, l2. split; [exact E|]. rewrite F, E. f_equal. rewrite filter_app. cbn [filter fst].
  rewrite Nat.eqb_refl. cbn [negb]. rewrite E, map_app in Hn. cbn [map fst] in Hn. rewrite <- app_assoc in Hn.
  apply NoDup_remove_2 in Hn. f_equal; apply filter_out; [exact N|].
  intros H. apply Hn. apply in_or_app. right. cbn. apply in_or_app. now left.
Qed.

Lemma finish_ids : forall o r p, coherent p -> Permutation (ids p) (ids (finish o r p)).
Proof.
  intros o r p Hc. destruct (finish_moves o r p Hc) as [(k & l1 & l2 & E & F)|[_ F]]; rewrite F; [|reflexivity].
  unfold ids. cbn [p_flight p_ready]. rewrite E, !map_app. cbn [map fst].
  rewrite <- !app_assoc. apply Permutation_app_head. cbn.
  rewrite !app_assoc. apply Permutation_cons_append.
Qed.

Lemma finish_next : forall o r (p : provider), p_next (finish o r p) = p_next p.
Proof. intros. unfold finish. now destruct (find _ _) as [[? ?]|]. Qed.

Lemma finish_coherent : forall o r p, coherent p -> coherent (finish o r p).
Proof.
  intros o r p Hc. assert (P := finish_ids o r p Hc). destruct Hc as [H1 H2]. split.
  - eapply Permutation_NoDup; [exact P|exact H1].
  - rewrite finish_next. eapply Permutation_Forall; [exact P|exact H2].
Qed.

Lemma finish_all_coherent : forall l p, coherent p -> coherent (finish_all l p).
Proof. induction l as [|[o r] l IH]; intros p H; cbn; [exact H|]. now apply IH, finish_coherent. Qed.

Lemma finish_all_next : forall l (p : provider), p_next (finish_all l p) = p_next p.
Proof. induction l as [|[o r] l IH]; intros p; cbn; [reflexivity|]. unfold finish_all in IH. rewrite IH. apply finish_next. Qed.

Lemma NoDup_front : forall (A : Type) (l l' : list A), NoDup (l ++ l') -> NoDup l.
Proof.
  induction l as [|x l IH]; cbn; intros l' H; [constructor|]. inversion H as [|? ? N H']; subst.
  constructor; [intros Hi; apply N, in_or_app; now left|eauto].
Qed.

Lemma poll_coherent : forall (p : provider), coherent p -> coherent (snd (poll p)).
Proof.
  intros p [H1 H2]. cbn [poll snd]. split; cbn [p_flight p_ready p_next map]; rewrite app_nil_r.
  - now apply NoDup_front in H1.
  - apply Forall_app in H2. apply H2.
Qed.

Lemma start_coherent : forall k (p : provider), coherent p -> coherent (start k p).
Proof.
  intros k p [H1 H2]. split; cbn [start p_flight p_ready p_next]; rewrite map_app; cbn [map fst]; rewrite <- app_assoc.
  - eapply Permutation_NoDup; [apply Permutation_middle|].
    cbn. constructor; [|exact H1]. intros H. rewrite Forall_forall in H2. apply H2 in H. lia.
  - eapply Permutation_Forall; [apply Permutation_middle|].
    cbn. constructor; [lia|]. eapply Forall_impl; [|exact H2]. cbn. lia.
Qed.

(** *** One call with an unused key. *)

(** The request is in flight, the only one with its key. *)
Definition waiting (k : K) (o : nat) (p : provider) : Prop :=
  coherent p /\ In (o, k) (p_flight p) /\ (forall o', In (o', k) (p_flight p) -> o' = o) /\
  (forall e, In e (p_ready p) -> snd (fst e) <> k).

(** The request has ended, its completion is the only one with its key. *)
Definition landed (k : K) (o : nat) (r : R) (p : provider) : Prop :=
  coherent p /\ In (o, k, r) (p_ready p) /\ (forall e, In e (p_ready p) -> snd (fst e) = k -> e = (o, k, r)) /\
  (forall o', ~ In (o', k) (p_flight p)).

Lemma in_mid : forall {A} (x y : A) l1 l2, In x (l1 ++ l2) -> In x (l1 ++ y :: l2).
Proof. intros. apply in_app_or in H as [H|H]; apply in_or_app; [now left|right; now right]. Qed.

Lemma finish_other : forall k o o' r p, waiting k o p -> o' <> o -> waiting k o (finish o' r p).
Proof.
  intros k o o' r p (Hc & Hi & Hu & Hr) N. split; [now apply finish_coherent|].
  destruct (finish_moves o' r p Hc) as [(k' & l1 & l2 & E & ->)|[_ ->]]; [|now repeat split].
  cbn [p_flight p_ready]. rewrite E in Hi, Hu. split; [|split].
  - apply in_app_or in Hi as [Hi|[Hi|Hi]]; [apply in_or_app; now left| |apply in_or_app; now right].
    injection Hi as -> ->. contradiction.
  - intros o1 H1. apply Hu. now apply in_mid.
  - intros e He. apply in_app_or in He as [He|[<-|[]]]; [now apply Hr|]. cbn [fst snd]. intros ->.
    apply N, Hu. apply in_elt.
Qed.

Lemma finish_own : forall k o r p, waiting k o p -> landed k o r (finish o r p).
Proof.
  intros k o r p (Hc & Hi & Hu & Hr). split; [now apply finish_coherent|].
  assert (Hk := finish_moves o r p Hc). destruct Hk as [(k' & l1 & l2 & E & ->)|[N _]].
  - assert (Hn := proj1 Hc). rewrite E, map_app in Hn. cbn [map fst] in Hn. rewrite <- app_assoc in Hn. apply NoDup_remove_2 in Hn.
    assert (k' = k).
    { rewrite E in Hi. apply in_app_or in Hi as [Hi|[Hi|Hi]]; [| now injection Hi|]; exfalso; apply Hn, in_or_app.
      - left. now apply (in_map fst) in Hi.
      - right. apply in_or_app. left. now apply (in_map fst) in Hi. }
    subst k'. cbn [p_flight p_ready]. split; [apply in_or_app; right; now left|]. split.
    + intros e He Hk. apply in_app_or in He as [He|[<-|[]]]; [now destruct (Hr _ He)|reflexivity].
    + intros o' H'. assert (o' = o) by (apply Hu; rewrite E; now apply in_mid). subst o'.
      apply Hn. apply in_app_or in H' as [H'|H']; apply (in_map fst) in H'; cbn in H'; apply in_or_app; [now left|].
      right. apply in_or_app. now left.
  - exfalso. apply N. now apply (in_map fst) in Hi.
Qed.

Lemma finish_landed : forall k o r o' r' p, landed k o r p -> landed k o r (finish o' r' p).
Proof.
  intros k o r o' r' p (Hc & Hi & Hu & Hn). split; [now apply finish_coherent|].
  destruct (finish_moves o' r' p Hc) as [(k' & l1 & l2 & E & ->)|[_ ->]]; [|now repeat split].
  cbn [p_flight p_ready]. rewrite E in Hn. split; [apply in_or_app; now left|]. split.
  - intros e He Hk. apply in_app_or in He as [He|[<-|[]]]; [now apply Hu|]. cbn [fst snd] in Hk. subst k'.
    exfalso. apply (Hn o'). apply in_elt.
  - intros o1 H1. apply (Hn o1). now apply in_mid.
Qed.

Lemma finish_all_landed : forall k o r l p, landed k o r p -> landed k o r (finish_all l p).
Proof. induction l as [|[o' r'] l IH]; intros p H; cbn; [exact H|]. now apply IH, finish_landed. Qed.

Lemma finish_all_waiting : forall k o l p, waiting k o p ->
  (~ In o (map fst l) /\ waiting k o (finish_all l p)) \/
  (exists before r after, l = before ++ (o, r) :: after /\ ~ In o (map fst before) /\ landed k o r (finish_all l p)).
Proof.
  induction l as [|[o' r'] l IH]; intros p H; cbn [map fst In].
  - left. split; [auto|exact H].
  - destruct (Nat.eq_dec o' o) as [->|N].
    + right. exists [], r', l. split; [reflexivity|]. split; [intros []|]. cbn [finish_all fold_left fst snd].
      apply (finish_all_landed k o r' l). now apply finish_own.
    + destruct (IH (finish o' r' p)) as [[H1 H2]|(bf & r & af & -> & H1 & H2)]; [now apply finish_other| |].
      * left. split; [intros [?|?]; auto|exact H2].
      * right. exists ((o', r') :: bf), r, af. split; [reflexivity|]. split; [intros [?|?]; auto|exact H2].
Qed.

Lemma pick_waiting : forall k o p, waiting k o p -> pick keqb k (p_ready p) = None.
Proof.
  intros k o p (_ & _ & _ & H). unfold pick. destruct (find _ _) as [[[o' k'] r]|] eqn:E; [|reflexivity].
  apply find_some in E as [E1 E2]. apply H in E1. apply keqb_eq in E2. contradiction.
Qed.

Lemma pick_landed : forall k o r p, landed k o r p -> pick keqb k (p_ready p) = Some (o, r).
Proof.
  intros k o r p (_ & Hi & Hu & _). unfold pick. destruct (find _ _) as [e|] eqn:E.
  - apply find_some in E as [E1 E2]. apply keqb_eq in E2. rewrite (Hu _ E1 E2). reflexivity.
  - apply (find_none _ _ E) in Hi. cbn [fst snd] in Hi. assert (keqb k k = true) by now apply keqb_eq. congruence.
Qed.

Lemma poll_waiting : forall k o p, waiting k o p -> waiting k o (snd (poll p)).
Proof.
  intros k o p (Hc & Hi & Hu & Hr). split; [now apply poll_coherent|]. cbn [poll snd p_flight p_ready].
  split; [exact Hi|]. split; [exact Hu|intros e []].
Qed.

Lemma start_waiting : forall k p, coherent p -> unused k p -> waiting k (p_next p) (start k p).
Proof.
  intros k p Hc [H1 H2]. split; [now apply start_coherent|]. cbn [start p_flight p_ready]. split; [apply in_or_app; right; now left|]. split.
  - intros o' H. apply in_app_or in H as [H|[H|[]]]; [|now injection H]. exfalso. apply H1. now apply (in_map snd) in H.
  - intros e He Hk. apply H2. subst k. now apply (in_map (fun e => snd (fst e))).
Qed.

Lemma ends_here : forall (e : N) l o (r : R) before after, l = before ++ (o, r) :: after -> ~ In o (map fst before) ->
  ends_with [(e, l)] o r.
Proof. intros e l o r bf af -> H. exists bf, af. cbn. now rewrite app_nil_r. Qed.

Lemma never_cons : forall (e : N) (l : list (nat * R)) ts o, never_ends ((e, l) :: ts) o <-> ~ In o (map fst l) /\ never_ends ts o.
Proof.
  intros. unfold never_ends. cbn [flat_map snd]. rewrite map_app, in_app_iff. tauto.
Qed.

Lemma wait_check_first_exact : forall k timeout turns o p e p', waiting k o p ->
  wait_check_first keqb k timeout turns p = (e, p') ->
  match e with
  | Some (Got o' r) => o' = o /\ exists pre last post, turns = pre ++ last :: post /\
      in_time timeout (pre ++ [last]) /\ never_ends pre o /\ ends_with [last] o r
  | Some TimedOut => exists pre last post, turns = pre ++ last :: post /\
      in_time timeout pre /\ never_ends pre o /\ (timeout <= fst last)%N
  | None => in_time timeout turns /\ never_ends turns o
  end.
Proof.
  intros k timeout. induction turns as [|[el fin] ts IH]; intros o p e p' Hw E; cbn [wait_check_first] in E.
  - injection E as <- <-. split; [constructor|intros []].
  - destruct (N.ltb_spec el timeout) as [Ht|Ht].
    + cbn [poll] in E.
      destruct (finish_all_waiting k o fin p Hw) as [[H1 H2]|(bf & r & af & H0 & H1 & H2)].
      * rewrite (pick_waiting _ _ _ H2) in E. apply poll_waiting in H2. specialize (IH _ _ _ _ H2 E).
        destruct e as [[o' r|]|].
        -- destruct IH as (-> & pre & last & post & -> & I1 & I2 & I3). split; [reflexivity|].
           exists ((el, fin) :: pre), last, post. split; [reflexivity|]. split; [constructor; assumption|].
           split; [now apply never_cons|exact I3].
        -- destruct IH as (pre & last & post & -> & I1 & I2 & I3).
           exists ((el, fin) :: pre), last, post. split; [reflexivity|]. split; [constructor; assumption|].
           split; [now apply never_cons|exact I3].
        -- destruct IH as [I1 I2]. split; [constructor; assumption|now apply never_cons].
      * rewrite (pick_landed _ _ _ _ H2) in E. injection E as <- <-. split; [reflexivity|].
        exists [], (el, fin), ts. split; [reflexivity|]. split; [repeat constructor; exact Ht|]. split; [intros []|].
        eapply ends_here; eauto.
    + injection E as <- <-. exists [], (el, fin), ts. split; [reflexivity|]. split; [constructor|]. split; [intros []|exact Ht].
Qed.

Lemma wait_poll_first_exact : forall k timeout turns o p e p', waiting k o p ->
  wait_poll_first keqb k timeout turns p = (e, p') ->
  match e with
  | Some (Got o' r) => o' = o /\ exists pre last post, turns = pre ++ last :: post /\
      in_time timeout pre /\ never_ends pre o /\ ends_with [last] o r
  | Some TimedOut => exists pre last post, turns = pre ++ last :: post /\
      in_time timeout pre /\ never_ends (pre ++ [last]) o /\ (timeout <= fst last)%N
  | None => in_time timeout turns /\ never_ends turns o
  end.
Proof.
  intros k timeout. induction turns as [|[el fin] ts IH]; intros o p e p' Hw E; cbn [wait_poll_first] in E.
  - injection E as <- <-. split; [constructor|intros []].
  - cbn [poll] in E.
    destruct (finish_all_waiting k o fin p Hw) as [[H1 H2]|(bf & r & af & H0 & H1 & H2)].
    + rewrite (pick_waiting _ _ _ H2) in E. destruct (N.ltb_spec el timeout) as [Ht|Ht].
      * apply poll_waiting in H2. specialize (IH _ _ _ _ H2 E).
        destruct e as [[o' r|]|].
        -- destruct IH as (-> & pre & last & post & -> & I1 & I2 & I3). split; [reflexivity|].
           exists ((el, fin) :: pre), last, post. split; [reflexivity|]. split; [constructor; assumption|].
           split; [now apply never_cons|exact I3].
        -- destruct IH as (pre & last & post & -> & I1 & I2 & I3).
           exists ((el, fin) :: pre), last, post. split; [reflexivity|]. split; [constructor; assumption|].
           split; [now apply never_cons|exact I3].
        -- destruct IH as [I1 I2]. split; [constructor; assumption|now apply never_cons].
      * injection E as <- <-. exists [], (el, fin), ts. split; [reflexivity|]. split; [constructor|]. split; [|exact Ht].
        apply never_cons. split; [exact H1|intros []].
    + rewrite (pick_landed _ _ _ _ H2) in E. injection E as <- <-. split; [reflexivity|].
      exists [], (el, fin), ts. split; [reflexivity|]. split; [constructor|]. split; [intros []|].
      eapply ends_here; eauto.
Qed.

(** A synchronous call whose key is not in use reports the result of its own
    request if that ends while the time is not over, a timeout if the time is over
    before, and otherwise goes on waiting.  (The [turns] decide when the requests
    end and what the clock reads, in any way whatsoever.) *)
Theorem C63_call_reports_its_own_request : forall k timeout turns p e p',
  coherent p -> unused k p -> sync_call keqb k timeout turns p = (e, p') ->
  match e with
  | Some (Got o r) => o = p_next p /\ exists pre last post, turns = pre ++ last :: post /\
      in_time timeout (pre ++ [last]) /\ never_ends pre o /\ ends_with [last] o r
  | Some TimedOut => exists pre last post, turns = pre ++ last :: post /\
      in_time timeout pre /\ never_ends pre (p_next p) /\ (timeout <= fst last)%N
  | None => in_time timeout turns /\ never_ends turns (p_next p)
  end.
Proof.
  intros k timeout turns p e p' Hc Hu E. unfold sync_call in E.
  assert (W := wait_check_first_exact _ _ _ _ _ _ _ (start_waiting _ _ Hc Hu) E).
  destruct e as [[o r|]|]; [|exact W|exact W]. destruct W as [-> W]. split; [reflexivity|exact W].
Qed.

(** Waiting for a stripe is the same, except that the last look at the
    completions comes after the clock ran out. *)
Theorem C63_stripe_wait_reports_its_own_request : forall k timeout turns p e p',
  coherent p -> unused k p -> sync_stripe keqb k timeout turns p = (e, p') ->
  match e with
  | Some (Got o r) => o = p_next p /\ exists pre last post, turns = pre ++ last :: post /\
      in_time timeout pre /\ never_ends pre o /\ ends_with [last] o r
  | Some TimedOut => exists pre last post, turns = pre ++ last :: post /\
      in_time timeout pre /\ never_ends (pre ++ [last]) (p_next p) /\ (timeout <= fst last)%N
  | None => in_time timeout turns /\ never_ends turns (p_next p)
  end.
Proof.
  intros k timeout turns p e p' Hc Hu E. unfold sync_stripe in E.
  assert (W := wait_poll_first_exact _ _ _ _ _ _ _ (start_waiting _ _ Hc Hu) E).
  destruct e as [[o r|]|]; [|exact W|exact W]. destruct W as [-> W]. split; [reflexivity|exact W].
Qed.

(** *** Many calls. *)

(** Every wait only takes away; what it leaves or reports was in flight or ready
    before, and what became ready meanwhile ended in one of its turns. *)
Definition grown (turns : list turn) (p p' : provider) : Prop :=
  coherent p' /\ p_next p' = p_next p /\
  (forall o k, In (o, k) (p_flight p') -> In (o, k) (p_flight p)) /\
  (forall o k r, In (o, k, r) (p_ready p') ->
     In (o, k, r) (p_ready p) \/ (In (o, k) (p_flight p) /\ In (o, r) (flat_map snd turns))).

Lemma finish_grown : forall o r p, coherent p -> grown [(0%N, [(o, r)])] p (finish o r p).
Proof.
  intros o r p Hc. split; [now apply finish_coherent|]. split; [apply finish_next|].
  destruct (finish_moves o r p Hc) as [(k & l1 & l2 & E & ->)|[_ ->]]; cbn [p_flight p_ready].
  - rewrite E. split.
    + intros o' k' H. now apply in_mid.
    + intros o' k' r' H. apply in_app_or in H as [H|[H|[]]]; [now left|]. injection H as <- <- <-.
      right. split; [apply in_elt|now left].
  - split; [auto|]. intros o' k' r' H. now left.
Qed.

Lemma finish_all_grown : forall el l p, coherent p -> grown [(el, l)] p (finish_all l p).
Proof.
  induction l as [|[o r] l IH]; intros p Hc.
  - split; [exact Hc|]. repeat split; auto.
  - destruct (IH (finish o r p)) as (G1 & G2 & G3 & G4); [now apply finish_coherent|].
    destruct (finish_grown o r p Hc) as (F1 & F2 & F3 & F4).
    split; [exact G1|]. split; [cbn; now rewrite <- F2, <- G2|]. split; [auto|].
    intros o' k r' H. apply G4 in H as [H|[H H']].
    + apply F4 in H as [H|[H H']]; [now left|]. right. split; [exact H|]. cbn in H'. destruct H' as [H'|[]]. cbn. now left.
    + right. split; [now apply F3|]. cbn in *. rewrite app_nil_r in *. now right.
Qed.

Lemma wait_grown : forall k timeout turns p e p', coherent p ->
  wait_check_first keqb k timeout turns p = (e, p') ->
  grown turns p p' /\
  (forall o r, e = Some (Got o r) -> p_ready p' = [] /\ ~ In o (map fst (p_flight p')) /\
     (In (o, k, r) (p_ready p) \/ (In (o, k) (p_flight p) /\ In (o, r) (flat_map snd turns)))).
Proof.
  intros k timeout. induction turns as [|[el fin] ts IH]; intros p e p' Hc E; cbn [wait_check_first] in E.
  - injection E as <- <-. split; [|discriminate]. split; [exact Hc|]. repeat split; auto.
  - destruct (finish_all_grown el fin p Hc) as (G1 & G2 & G3 & G4).
    cbn [flat_map snd] in G4 |- *. rewrite app_nil_r in G4.
    destruct (el <? timeout)%N.
    + cbn [poll] in E. destruct (pick keqb k (p_ready (finish_all fin p))) as [[o r]|] eqn:Ep.
      * injection E as <- <-. split.
        -- split; [now apply poll_coherent in G1|]. cbn [p_next p_flight p_ready]. split; [exact G2|]. split; [exact G3|]. intros ? ? ? [].
        -- intros o' r' H. injection H as <- <-. unfold pick in Ep.
           destruct (find _ _) as [[[o1 k1] r1]|] eqn:Ef; [|discriminate]. injection Ep as <- <-.
           apply find_some in Ef as [Ef1 Ef2]. cbn [fst snd] in Ef2. apply keqb_eq in Ef2. subst k1.
           split; [reflexivity|]. split.
           ++ intros H. destruct G1 as [G1 _]. apply in_split in Ef1 as (r1' & r2 & Ef1). rewrite Ef1 in G1.
              rewrite map_app in G1. cbn [map fst] in G1. rewrite app_assoc in G1. apply NoDup_remove_2 in G1.
              apply G1, in_or_app. left. apply in_or_app. now left.
           ++ apply G4 in Ef1 as [H|[H H']]; [now left|right]. split; [exact H|apply in_or_app; now left].
      * apply IH in E as [(F1 & F2 & F3 & F4) F5]; [|now apply poll_coherent in G1].
        cbn [p_next p_flight p_ready] in *. split.
        -- split; [exact F1|]. split; [now rewrite F2|]. split; [auto|].
           intros o k' r H. apply F4 in H as [[]|[H H']]. right. split; [auto|]. apply in_or_app. now right.
        -- intros o r H. apply F5 in H as (F6 & F7 & F8). split; [exact F6|]. split; [exact F7|].
           destruct F8 as [[]|[H H']]. right. split; [auto|]. apply in_or_app. now right.
    + injection E as <- <-. split; [|discriminate]. split; [exact G1|]. split; [exact G2|]. split; [exact G3|].
      intros o k' r H. apply G4 in H as [H|[H H']]; [now left|right]. split; [exact H|apply in_or_app; now left].
Qed.

(** The call with number [o] has ended without reporting its own request. *)
Definition unreported (es : list (option (@ending R))) (o : nat) : Prop :=
  nth_error es o = Some (Some TimedOut) \/ exists o' r, nth_error es o = Some (Some (Got o' r)) /\ o' < o.

(** After some calls, with endings [es]: whatever is in flight or ready belongs to
    a call that has not reported it, and what is ready ended in the turns of a call
    since. *)
Definition leftover (calls : list (K * N * list turn)) (es : list (option (@ending R))) (p : provider) : Prop :=
  coherent p /\ p_next p = length es /\
  (forall o k, In (o, k) (p_flight p) -> unreported es o /\
     exists t ts, nth_error calls o = Some (k, t, ts)) /\
  (forall o k r, In (o, k, r) (p_ready p) -> unreported es o /\
     (exists t ts, nth_error calls o = Some (k, t, ts)) /\
     exists i k' t ts, o <= i < length es /\ nth_error calls i = Some (k', t, ts) /\ In (o, r) (flat_map snd ts)).

(** What the call at position [j] may report. *)
Definition honest (calls : list (K * N * list turn)) (es : list (option (@ending R))) (j : nat) : Prop :=
  forall o r, nth_error es j = Some (Some (Got o r)) ->
    (o = j \/ (o < j /\ unreported es o /\
       exists k t t' ts ts', nth_error calls o = Some (k, t, ts) /\ nth_error calls j = Some (k, t', ts'))) /\
    exists i k t ts, o <= i <= j /\ nth_error calls i = Some (k, t, ts) /\ In (o, r) (flat_map snd ts).

Lemma unreported_lt : forall es o, unreported es o -> o < length es.
Proof. intros es o [H|(o' & r & H & _)]; apply nth_error_Some; congruence. Qed.

Lemma unreported_app : forall es es' o, unreported es o -> unreported (es ++ es') o.
Proof.
  intros es es' o H. assert (L := unreported_lt _ _ H). unfold unreported in *. now rewrite nth_error_app1.
Qed.

Lemma sync_calls_honest : forall todo before es p,
  length before = length es -> leftover (before ++ todo) es p -> (forall j, honest (before ++ todo) es j) ->
  forall es' p', sync_calls keqb todo p = (es', p') -> forall j, honest (before ++ todo) (es ++ es') j.
Proof.
  induction todo as [|[[k timeout] turns] todo IH]; intros before es p Hl Hlo Hh es' p' E; cbn [sync_calls] in E.
  - injection E as <- <-. rewrite (app_nil_r es). exact Hh.
  - destruct Hlo as (Hc & Hn & Hf & Hr). unfold sync_call in E.
    destruct (wait_check_first keqb k timeout turns (start k p)) as [e p1] eqn:Ew.
    destruct (wait_grown _ _ _ _ _ _ (start_coherent k p Hc) Ew) as [(G1 & G2 & G3 & G4) G5].
    cbn [start p_next p_flight p_ready] in *.
    assert (Hj : nth_error (before ++ (k, timeout, turns) :: todo) (length es) = Some (k, timeout, turns)).
    { rewrite <- Hl, nth_error_app2 by lia. now rewrite Nat.sub_diag. }
    assert (Hown : forall o r, e = Some (Got o r) ->
      (o = length es \/ (o < length es /\ unreported es o /\
        exists t ts, nth_error (before ++ (k, timeout, turns) :: todo) o = Some (k, t, ts))) /\
      exists i k' t ts, o <= i <= length es /\ nth_error (before ++ (k, timeout, turns) :: todo) i = Some (k', t, ts) /\ In (o, r) (flat_map snd ts)).
    { intros o r ->. destruct (G5 o r eq_refl) as (_ & _ & [H|[H H']]).
      - destruct (Hr _ _ _ H) as (H1 & (t & ts & H2) & i & k' & t' & ts' & H3 & H4 & H5).
        assert (L := unreported_lt _ _ H1). split; [|exists i, k', t', ts'; split; [lia|now split]].
        right. split; [exact L|]. split; [exact H1|]. now exists t, ts.
      - apply in_app_or in H as [H|[H|[]]].
        + destruct (Hf _ _ H) as (H1 & t & ts & H2). assert (L := unreported_lt _ _ H1). split.
          * right. split; [exact L|]. split; [exact H1|]. now exists t, ts.
          * exists (length es), k, timeout, turns. split; [lia|now split].
        + injection H as <-. rewrite Hn. split; [now left|]. exists (length es), k, timeout, turns. split; [lia|].
          split; [exact Hj|]. now rewrite <- Hn. }
    assert (Hstep : forall j, honest (before ++ (k, timeout, turns) :: todo) (es ++ [e]) j).
    { intros j o r Hj'. destruct (Nat.lt_ge_cases j (length es)) as [Hlt|Hge].
      - rewrite nth_error_app1 in Hj' by exact Hlt. destruct (Hh j o r Hj') as [H1 H2]. split; [|exact H2].
        destruct H1 as [H1|(H1 & H3 & H4)]; [now left|right]. split; [exact H1|]. split; [|exact H4].
        now apply unreported_app.
      - assert (j = length es).
        { assert (j < length (es ++ [e])) by (apply nth_error_Some; congruence). rewrite app_length in H. cbn in H. lia. }
        subst j. rewrite nth_error_app2, Nat.sub_diag in Hj' by lia. cbn in Hj'. injection Hj' as ->.
        destruct (Hown o r eq_refl) as [H1 H2]. split; [|exact H2].
        destruct H1 as [H1|(H1 & H3 & t & ts & H4)]; [now left|right]. split; [exact H1|].
        split; [now apply unreported_app|]. exists k, t, timeout, ts, turns. now split. }
    destruct e as [e|].
    + destruct (sync_calls keqb todo p1) as [es1 p2] eqn:Er. injection E as <- <-.
      change (Some e :: es1) with ([Some e] ++ es1). rewrite app_assoc.
      assert (Hnow : forall k', In (length es, k') (p_flight p1) \/ (exists r, In (length es, k', r) (p_ready p1)) ->
        unreported (es ++ [Some e]) (length es)).
      { intros k' H. unfold unreported. rewrite nth_error_app2, Nat.sub_diag by lia. cbn.
        destruct e as [o r|]; [|now left]. right. exists o, r. split; [reflexivity|].
        destruct (Hown o r eq_refl) as [[->|[Ho _]] _]; [exfalso|exact Ho].
        destruct (G5 _ _ eq_refl) as (G6 & G7 & _). destruct H as [H|[r' H]].
        - apply G7. now apply (in_map fst) in H.
        - rewrite G6 in H. destruct H. }
      replace (before ++ (k, timeout, turns) :: todo) with ((before ++ [(k, timeout, turns)]) ++ todo) in * by now rewrite <- app_assoc.
      eapply IH; [|split; [exact G1|split; [|split]]|exact Hstep|exact Er].
      * rewrite !app_length. cbn. lia.
      * rewrite G2, Hn, app_length. cbn. lia.
      * intros o k' H. apply G3 in H as H0. apply in_app_or in H0 as [H0|[H0|[]]].
        -- destruct (Hf _ _ H0) as (H1 & H2). split; [now apply unreported_app|exact H2].
        -- injection H0 as <- <-. rewrite Hn in *. split; [apply (Hnow k); now left|now exists timeout, turns].
      * intros o k' r H. apply G4 in H as H0. destruct H0 as [H0|[H0 H0']].
        -- destruct (Hr _ _ _ H0) as (H1 & H2 & i & k2 & t & ts & H3 & H4). split; [now apply unreported_app|].
           split; [exact H2|]. exists i, k2, t, ts. split; [rewrite app_length; cbn; lia|exact H4].
        -- apply in_app_or in H0 as [H0|[H0|[]]].
           ++ destruct (Hf _ _ H0) as (H1 & H2). assert (L := unreported_lt _ _ H1).
              split; [now apply unreported_app|]. split; [exact H2|].
              exists (length es), k, timeout, turns. split; [rewrite app_length; cbn; lia|now split].
           ++ injection H0 as <- <-. rewrite Hn in *. split; [apply (Hnow k); right; now exists r|].
              split; [now exists timeout, turns|]. exists (length es), k, timeout, turns.
              split; [rewrite app_length; cbn; lia|now split].
    + injection E as <- <-. exact Hstep.
Qed.

(** However many synchronous calls are made one after the other: the result a call
    reports is the one its own request ended with, unless an earlier call with the
    same key timed out.  (Request [i] is the request of call [i].) *)
Theorem C63_calls_report_their_own_requests : forall calls es p' j o r k timeout turns,
  sync_calls keqb calls p_init = (es, p') ->
  nth_error calls j = Some (k, timeout, turns) -> nth_error es j = Some (Some (Got o r)) ->
  (o = j /\ In (j, r) (flat_map snd turns)) \/
  (exists i t ts, i < j /\ nth_error calls i = Some (k, t, ts) /\ nth_error es i = Some (Some TimedOut)).
Proof.
  intros calls es p' j o r k timeout turns E.
  assert (H : forall j, honest calls es j).
  { change calls with ([] ++ calls). change es with ([] ++ es). eapply sync_calls_honest; [reflexivity| | |exact E].
    - split; [split; constructor|]. split; [reflexivity|]. split; intros; contradiction.
    - intros j0 o0 r0 H. now destruct j0. }
  revert o r k timeout turns. induction j as [j IH] using lt_wf_ind. intros o r k timeout turns Hc He.
  destruct (H j o r He) as [[->|(Ho & Hu & k' & t & t' & ts & ts' & H1 & H2)] H3].
  - left. split; [reflexivity|]. destruct H3 as (i & k1 & t1 & ts1 & Hi & H4 & H5).
    assert (i = j) by lia. subst i. rewrite Hc in H4. injection H4 as <- <- <-. exact H5.
  - right. rewrite Hc in H2. injection H2 as <- <- <-. destruct Hu as [Hu|(o' & r' & Hu & Ho')].
    + now exists o, t, ts.
    + destruct (IH o Ho o' r' k t ts H1 Hu) as [[-> _]|(i & t2 & ts2 & H4 & H5 & H6)]; [lia|].
      exists i, t2, ts2. split; [lia|now split].
Qed.
End WaitProofs.

(** After a put that timed out, a second put of the same object is told the result of
    the first: it reports success although the object it was to store never is. *)
Theorem C63_refuted_after_a_timeout :
  sync_calls Nat.eqb [(7, 30%N, [(0%N, []); (31%N, [])]);
                      (7, 30%N, [(0%N, [(0, true)])])] p_init =
  ([Some TimedOut; Some (Got 0 true)], mk_provider 2 [(1, 7)] []).
Proof. reflexivity. Qed.

(** Completions of other requests that come in during the wait are lost: request 0
    ended, and neither in flight nor to be collected is it found any more. *)
Theorem C63_refuted_other_completions :
  sync_call Nat.eqb 8 30%N [(0%N, [(0, false); (1, true)])] (start 7 p_init) =
  (Some (Got 1 true), mk_provider 2 [] []).
Proof. reflexivity. Qed.

(** Three calls on one store: the second times out, the third has another key and
    gets its own result although the second one's comes in meanwhile. *)
Example C63_nonvacuous :
  sync_calls Nat.eqb [(7, 30%N, [(0%N, []); (5%N, [(0, true)])]);
                      (8, 30%N, [(0%N, []); (29%N, []); (30%N, [])]);
                      (9, 30%N, [(0%N, [(1, true)]); (1%N, [(2, false)])])] p_init =
  ([Some (Got 0 true); Some TimedOut; Some (Got 2 false)], mk_provider 3 [] []).
Proof. reflexivity. Qed.

Example C63_call_nonvacuous : @coherent nat bool (start 7 p_init) /\ @unused nat bool 8 (start 7 p_init) /\
  sync_call Nat.eqb 8 30%N [(0%N, [(0, false)]); (3%N, [(1, true)])] (start 7 p_init) = (Some (Got 1 true), mk_provider 2 [] []) /\
  sync_stripe Nat.eqb 8 30%N [(0%N, [(0, false)]); (30%N, [(1, true)])] (start 7 p_init) = (Some (Got 1 true), mk_provider 2 [] []).
Proof.
  split; [|split; [|split; reflexivity]].
  - split; cbn; repeat constructor; auto.
  - split; cbn; [intros [H|[]]; discriminate|auto].
Qed.

Print Assumptions C63_call_reports_its_own_request.
Print Assumptions C63_stripe_wait_reports_its_own_request.
Print Assumptions C63_calls_report_their_own_requests.
Print Assumptions C63_refuted_after_a_timeout.
Print Assumptions C63_refuted_other_completions.
