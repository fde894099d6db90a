(** Invariant of the notification protocol (C75). *)
From Coq Require Import List NArith ZArith Bool Lia ZifyBool ZifyN.
From Verif Require Import KickModel KickSpec.
Import ListNotations.
Local Open Scope N_scope.
Ltac Zify.zify_post_hook ::= Z.div_mod_to_equations.

Lemma same16_near : forall a b, b <= a -> a - b < 65536 -> same16 a b = (a =? b).
Proof. intros a b L H. unfold same16, W16. lia. Qed.

Lemma sub16_near : forall a b, b <= a -> a - b < 65536 -> sub16 a b = a - b.
Proof. intros a b L H. unfold sub16, W16. lia. Qed.

Lemma sub16_mod : forall a b, sub16 a (b mod W16) = sub16 a b.
Proof. intros a b. unfold sub16, W16. rewrite N.mod_mod by lia. reflexivity. Qed.

Lemma need_event : forall new ev old, old <= ev -> ev < new -> new - old < 65536 ->
  (sub16 (sub16 new (ev mod W16)) 1 <? sub16 new old) = true.
Proof.
  intros new ev old A B C. rewrite sub16_mod.
  rewrite (sub16_near new ev) by lia. rewrite (sub16_near new old) by lia.
  rewrite sub16_near by lia. lia.
Qed.

Section Inv.
Variable ei : bool.
Variable qsize : N.
Hypothesis HQ : qsize <= 32768.

(** Counters. *)
Definition Cnt (s : kstate) : Prop :=
  k_seen s <= k_used s /\ k_used s + k_flight s = k_next s /\ k_next s <= k_avail s /\
  k_avail s - k_seen s <= qsize /\ k_kicked s <= k_avail s /\ k_avail s - k_kicked s < 65536.

(** The kick owed for requests behind [m]. *)
Definition Owed (m : N) (s : kstate) : Prop :=
  m < k_avail s -> k_kick s = true \/ k_kicked s <= m.

Definition Armed (s : kstate) : Prop :=
  k_avail_event s = k_next s mod W16 /\ Owed (k_next s) s.

(** Behind the polling loop without EVENT_IDX: whatever was found since is owed a kick. *)
Definition Marked (s : kstate) : Prop :=
  exists m, m <= k_next s /\ k_flight s <= k_next s - m /\ Owed m s.

Definition Kicks (s : kstate) : Prop :=
  match k_pc s with
  | Asleep => if ei then Armed s /\ k_flight s = 0 else Marked s
  | In f p =>
    match p with
    | PEnable => f = true /\ ei = true
    | PPop b =>
      f = true -> if ei then b = false -> k_avail_event s = k_next s mod W16 else Marked s
    | PPoll b =>
      if f then (if ei then b = false -> Armed s else Marked s)
      else ei = false -> b = false -> Owed (k_next s) s
    | PSignal b | PRaise b | PReturn b =>
      (b = false -> k_flight s = 0) /\
      (if f then (if ei then b = false -> Armed s else Marked s)
       else ei = false -> b = false -> Owed (k_next s) s)
    end
  end.

(** Nothing to announce is left behind. *)
Definition Announced (s : kstate) : Prop :=
  match k_pc s with
  | Asleep | In _ PEnable | In _ (PReturn _) => if ei then k_added s = 0 else k_pend s = false
  | In _ (PRaise _) => ei = true -> k_added s = 0
  | _ => True
  end.

Definition raising (s : kstate) : Prop := exists f b, k_pc s = In f (PRaise b).

Definition Ints (s : kstate) : Prop :=
  (k_cb s = Enabling \/ k_cb s = Waiting -> k_used_event s = k_seen s mod W16) /\
  (k_cb s = Waiting -> k_irq s = false ->
   k_used s = k_seen s \/ raising s \/
   (k_pend s = true /\ (ei = true -> k_used s - k_seen s <= k_added s))).

(** [num_added] never wraps: [n] answers at once so far in this pass. *)
Definition Added (n : N) (s : kstate) : Prop :=
  ei = true ->
  match k_pc s with
  | In _ (PPop _) => k_added s <= n
  | In _ (PPoll _) => k_added s + k_flight s <= n + qsize
  | In _ (PSignal _) => k_added s + k_flight s <= n + qsize
  | _ => k_added s = 0
  end.

Definition Inv (n : N) (s : kstate) : Prop :=
  Cnt s /\ Kicks s /\ Announced s /\ Ints s /\ Added n s /\
  (ei = true -> k_pend s = false -> k_added s = 0).

Lemma inv_init : Inv 0 kinit.
Proof.
  unfold Inv, kinit, Cnt, Kicks, Announced, Ints, Added, Armed, Marked, Owed; cbn.
  repeat split; try lia; try (intros; discriminate).
  - destruct ei; [split; [split; [reflexivity|lia]|reflexivity]|exists 0; lia].
  - destruct ei; reflexivity.
Qed.

Definition next_n (n : N) (e : kevent) : N :=
  match e with BSignal => 0 | BPop AtOnce => n + 1 | _ => n end.


Ltac proj := cbn [k_avail k_avail_event k_used k_used_event k_kick k_irq k_pc k_next k_flight
  k_added k_pend k_kicked k_seen k_cb set_pc add_used set_next_flight clear_added] in *.

Ltac unf := unfold Inv, Cnt, Kicks, Announced, Ints, Added, Armed, Marked, Owed, raising in *.


Ltac norace I2 := intros HE HI; destruct (I2 HE HI) as [E|[(f0 & b0 & E)|[E1 E2]]];
  [left; lia|try discriminate E|right; right; split; [auto|intros X; specialize (E2 X); lia]].

Lemma inv_step : forall n s e s',
  Inv n s -> e <> BPop BadChain ->
  next_n n e < 65536 - qsize ->
  kstep ei qsize s e = Some s' -> Inv (next_n n e) s'.
Proof.
  intros n [av ave us ue ki ir pc nx fl ad pe kd sn cb] e s' I NB HN ST.
  unf. proj. destruct I as [(C1 & C2 & C3 & C4 & C5 & C6) [K [A [[I1 I2] [D P]]]]].
  destruct e as [| |a| | | | |el| | | |v| | |]; cbn [next_n] in *; unfold kstep in ST; proj.
  - (* BWake *) destruct pc as [|f p]; [|discriminate ST].
    destruct ki; [|discriminate ST]. injection ST as <-. proj.
    repeat split; auto; try lia; try (intros; discriminate).
    + norace I2.
  - (* BEnable *) destruct pc as [|f p]; [discriminate ST|].
    destruct f; [|discriminate ST]. destruct p; try discriminate ST.
    injection ST as <-. proj.
    repeat split; auto; try lia.
    + intros _. destruct ei; [reflexivity|]. destruct K as [_ K]. discriminate K.
    + norace I2.
  - (* BPop *) destruct pc as [|f p]; [discriminate ST|]. destruct p; try discriminate ST.
    rewrite same16_near in ST by lia.
    destruct (av =? nx) eqn:EN.
    + injection ST as <-. proj.
      repeat split; auto; try lia.
      * destruct f.
        -- specialize (K eq_refl). destruct ei; [|exact K].
           intros B. split; [auto|lia].
        -- lia.
      * norace I2.
      * intros HE. specialize (D HE). destruct a; lia.
    + assert (KK : f = true -> if ei then true = false -> ave = (nx + 1) mod W16
                else exists m, m <= nx + 1 /\ fl + 1 <= nx + 1 - m /\ (m < av -> ki = true \/ kd <= m)).
      { intros F. specialize (K F). destruct ei; [discriminate|].
        destruct K as (m & M1 & M2 & M3). exists m. repeat split; auto; lia. }
      destruct a; [| |congruence]; injection ST as <-; proj.
      * repeat split; auto; try lia. norace I2.
      * repeat split; auto; try lia.
        -- intros F. specialize (KK F). destruct ei; [discriminate|].
           destruct KK as (m & M1 & M2 & M3). exists m. repeat split; auto; lia.
        -- unfold W16. intros HE HI. right; right. split; [reflexivity|]. intros X.
           specialize (D X). rewrite N.mod_small by lia.
           destruct (I2 HE HI) as [E|[(f0 & b0 & E)|[E1 E2]]]; [lia|discriminate E|].
           specialize (E2 X). lia.
        -- intros X. specialize (D X). unfold W16. rewrite N.mod_small by lia. lia.
  - (* BComplete *) destruct pc as [|f p]; [discriminate ST|]. destruct p; try discriminate ST.
    unfold is_zero in ST. destruct (fl =? 0) eqn:EF; [discriminate ST|]. injection ST as <-. proj.
    repeat split; auto; try lia.
    + destruct f; [|exact K]. destruct ei; [exact K|].
      destruct K as (m & M1 & M2 & M3). exists m. repeat split; auto; lia.
    + intros HE HI. right; right. split; [reflexivity|]. intros X.
      specialize (D X). unfold W16. rewrite N.mod_small by lia.
      destruct (I2 HE HI) as [E|[(f0 & b0 & E)|[E1 E2]]]; [lia|discriminate E|].
      specialize (E2 X). lia.
    + intros X. specialize (D X). unfold W16. rewrite N.mod_small by lia. lia.
  - (* BPolled *) destruct pc as [|f p]; [discriminate ST|]. destruct p; try discriminate ST.
    unfold is_zero in ST. injection ST as <-. proj.
    repeat split; auto; try lia.
    + destruct f; [destruct ei; [|exact K]|intros X]; intros B; apply K; auto; apply orb_false_iff in B; tauto.
    + norace I2.
  - (* BSignal *) destruct pc as [|f p]; [discriminate ST|]. destruct p; try discriminate ST.
    destruct pe.
    + destruct ei eqn:EE.
      * injection ST as <-. unfold needs_notification in *. proj.
        assert (NN : cb = Waiting -> ir = false -> us <> sn ->
                     (sub16 (sub16 us ue) 1 <? ad) = true).
        { intros HE HI NE. rewrite (I1 (or_intror HE)). rewrite sub16_mod.
          rewrite (sub16_near us sn) by lia. rewrite sub16_near by lia.
          destruct (I2 HE HI) as [E|[(f0 & b0 & E)|[E1 E2]]]; [lia|discriminate E|].
          specialize (E2 eq_refl). lia. }
        destruct (sub16 (sub16 us ue) 1 <? ad) eqn:EN.
        -- repeat split; auto; try tauto; try lia.
           intros HE HI. right; left. eauto.
        -- repeat split; auto; try tauto; try lia.
      * injection ST as <-. proj.
        repeat split; auto; try tauto; try discriminate; try lia.
    + injection ST as <-. proj.
      repeat split; auto; try tauto; try lia.
      * destruct ei; auto.
      * intros HE HI. left. destruct (I2 HE HI) as [E|[(f0 & b0 & E)|[E1 E2]]];
          [exact E|discriminate E|discriminate E1].
  - (* BRaise *) destruct pc as [|f p]; [discriminate ST|]. destruct p; try discriminate ST.
    injection ST as <-. proj.
    repeat split; auto; try tauto; try lia.
    + destruct ei; auto.
  - (* BReturn *) destruct pc as [|f p]; [discriminate ST|]. destruct p as [|b|b|b|b|b]; try discriminate ST.
    { destruct f; discriminate ST. }
    all: try (destruct f; discriminate ST).
    destruct K as [K1 K2]. destruct f.
    + injection ST as <-. destruct ei eqn:EE; cbn [andb].
      * destruct b; proj.
        -- repeat split; auto; try lia. norace I2.
        -- repeat split; auto; try lia; try (apply K2; reflexivity). norace I2.
      * proj. repeat split; auto; try lia. norace I2.
    + destruct (b || negb el) eqn:EB; injection ST as <-; proj.
      * repeat split; auto; try lia; try discriminate.
        -- norace I2.
      * assert (B : b = false) by (destruct b; [discriminate EB|reflexivity]).
        specialize (K1 B).
        destruct ei eqn:EE; proj.
        -- repeat split; auto; try lia. norace I2.
        -- repeat split; auto; try lia; try discriminate.
           ++ intros _. exists nx. repeat split; auto; lia.
           ++ norace I2.
  - (* GAdd *) destruct (may_add qsize _) eqn:EM in ST; [|discriminate ST].
    injection ST as <-. unfold may_add, W16 in EM. proj.
    assert (OW : forall m, (m < av -> ki = true \/ kd <= m) -> m < av + 1 -> ki = true \/ kd <= m).
    { intros m H L. destruct (N.eq_dec m av); [right; lia|apply H; lia]. }
    repeat split; auto; try lia.
    + destruct pc as [|f p].
      * destruct ei; [|destruct K as (m & M1 & M2 & M3); exists m; repeat split; auto].
        destruct K as [[K1 K2] K3]. repeat split; auto.
      * destruct p; auto.
        -- intros F. specialize (K F). destruct ei; [exact K|].
           destruct K as (m & M1 & M2 & M3); exists m; repeat split; auto.
        -- destruct f; [|intros X Y; apply OW; auto].
           destruct ei; [intros B; destruct (K B); split; auto|].
           destruct K as (m & M1 & M2 & M3); exists m; repeat split; auto.
        -- destruct K as [K1 K]. split; [exact K1|]. destruct f; [|intros X Y; apply OW; auto].
           destruct ei; [intros B; destruct (K B); split; auto|].
           destruct K as (m & M1 & M2 & M3); exists m; repeat split; auto.
        -- destruct K as [K1 K]. split; [exact K1|]. destruct f; [|intros X Y; apply OW; auto].
           destruct ei; [intros B; destruct (K B); split; auto|].
           destruct K as (m & M1 & M2 & M3); exists m; repeat split; auto.
        -- destruct K as [K1 K]. split; [exact K1|]. destruct f; [|intros X Y; apply OW; auto].
           destruct ei; [intros B; destruct (K B); split; auto|].
           destruct K as (m & M1 & M2 & M3); exists m; repeat split; auto.
  - (* GKick *) injection ST as <-. unfold driver_kicks. proj.
    assert (OE : ei = true -> ave = nx mod W16 -> (nx < av -> ki = true \/ kd <= nx) -> nx < av ->
      (if ei then sub16 (sub16 av ave) 1 <? sub16 av kd else true) || ki = true \/ av <= nx).
    { intros X -> H L. left. rewrite X. destruct (H L) as [->|L'].
      - apply orb_true_r.
      - rewrite need_event by lia. reflexivity. }
    assert (ON : ei = false -> forall m, (if ei then sub16 (sub16 av ave) 1 <? sub16 av kd else true) || ki = true \/ av <= m).
    { intros -> m. left. reflexivity. }
    repeat split; auto; try lia.
    + destruct pc as [|f p].
      * destruct ei; [|destruct K as (m & M1 & M2 & M3); exists m; repeat split; auto].
        destruct K as [[K1 K2] K3]. repeat split; auto.
      * destruct p; auto.
        -- intros F. specialize (K F). destruct ei; [exact K|].
           destruct K as (m & M1 & M2 & M3); exists m; repeat split; auto.
        -- destruct f; [|intros X Y; auto].
           destruct ei; [intros B; destruct (K B); split; auto|].
           destruct K as (m & M1 & M2 & M3); exists m; repeat split; auto.
        -- destruct K as [K1 K]. split; [exact K1|]. destruct f; [|intros X Y; auto].
           destruct ei; [intros B; destruct (K B); split; auto|].
           destruct K as (m & M1 & M2 & M3); exists m; repeat split; auto.
        -- destruct K as [K1 K]. split; [exact K1|]. destruct f; [|intros X Y; auto].
           destruct ei; [intros B; destruct (K B); split; auto|].
           destruct K as (m & M1 & M2 & M3); exists m; repeat split; auto.
        -- destruct K as [K1 K]. split; [exact K1|]. destruct f; [|intros X Y; auto].
           destruct ei; [intros B; destruct (K B); split; auto|].
           destruct K as (m & M1 & M2 & M3); exists m; repeat split; auto.
  - (* GTake *) destruct cb; try discriminate ST.
    rewrite same16_near in ST by lia.
    destruct (us =? sn) eqn:EU; [discriminate ST|]. injection ST as <-. proj.
    repeat split; auto; try lia; try discriminate.
    intros [C|C]; discriminate C.
  - (* GScribble *) destruct cb; try discriminate ST. injection ST as <-. proj.
    repeat split; auto; try lia; try discriminate.
    intros [C|C]; discriminate C.
  - (* GEnable *) destruct cb; try discriminate ST. injection ST as <-. proj.
    repeat split; auto; try lia; try discriminate.
  - (* GCheck *) destruct cb; try discriminate ST. injection ST as <-. proj.
    rewrite same16_near by lia.
    repeat split; auto; try lia; try discriminate.
    intros C. destruct (us =? sn) eqn:EU; [left; lia|discriminate C].
  - (* GIrq *) destruct ir; [|discriminate ST]. injection ST as <-. proj.
    repeat split; auto; try lia; try discriminate.
    + intros C. apply I1. destruct cb; tauto || (destruct C; discriminate).
    + intros C. destruct cb; discriminate C.
Qed.

End Inv.
