(** Invariant of the archive stripe source. *)
From Coq Require Import List Arith NArith Bool Lia Permutation.
Import ListNotations.
From Verif Require Import Base BaseFacts MetadataModel CryptModel KeyModel ArchiveModel ArchiverModel ArchiveSpec
  ArchiveProofs ArchiverProofs ArchiveSourceModel.

Arguments object_key : simpl never.

(** Digests are arrays of 32 bytes. *)
Definition source_typed (src : source) : Prop :=
  forall i h, map_get (s_map src) i = Some (SDigest h) -> length h = 32 /\ bytes_ok h.

Lemma nodup_app_r : forall {A} (a b : list A), NoDup (a ++ b) -> NoDup b.
Proof. induction a as [|x a IH]; intros b H; [exact H|]. inversion H; subst. auto. Qed.
Lemma nodup_app_l : forall {A} (a b : list A), NoDup (a ++ b) -> NoDup a.
Proof.
  induction a as [|x a IH]; intros b H; [constructor|]. cbn in H. inversion H; subst. constructor; [|eauto].
  intros X. apply H2. apply in_or_app. now left.
Qed.

Section Source.
Variable P : prims.
Variable L : lawful P.
Variable src : source.
Variable T : source_typed src.
(** What the store may answer to a get. *)
Variable D : list byte -> option (list byte) -> Prop.

(** Stripe [i] was answered with [ok] and [d] is what its buffer holds. *)
Definition outcome (i : nat) (ok : bool) (d : list byte) : Prop :=
  match map_get (s_map src) i with
  | Some (SDigest h) =>
    exists r, D (object_key h) r /\
      match r with
      | Some data =>
        let f := finish_stripe_fetch P (s_cipher src) (s_comp src) (s_ssc src) i data h (length d) in
        if ok then f = Ok d else exists e, f = Err e
      | None => ok = false
      end
  | _ => ok = true /\ d = repeat 0%N (length d)
  end.

Record sinv (s : asource) : Prop := {
  v_names : NoDup (map pr_name (q_pending s));
  v_pending : Forall (fun p => pr_name p = object_key (pr_sha p) /\ length (pr_sha p) = 32 /\ bytes_ok (pr_sha p) /\
                 pr_stripes p <> [] /\
                 Forall (fun x => map_get (s_map src) (fst x) = Some (SDigest (pr_sha p))) (pr_stripes p)) (q_pending s);
  v_finished : Forall (fun x => outcome (fst (fst x)) (snd x) (q_mem s (snd (fst x)))) (q_finished s);
  v_bufs : NoDup (map snd (q_outstanding s))
}.

Lemma finish_length : forall i data h n d,
  finish_stripe_fetch P (s_cipher src) (s_comp src) (s_ssc src) i data h n = Ok d -> length d = n.
Proof.
  intros i data h n d H. unfold finish_stripe_fetch in H.
  destruct (negb _); [discriminate|]. destruct (maybe_decrypt _ _ _ _ _) as [x| |]; try discriminate. cbn [bindr] in H.
  destruct (decompress _ _ _) as [p| |]; try discriminate. cbn [bindr] in H.
  destruct (n <? length p) eqn:E; [discriminate|]. apply Ok_inj in H. subst d. rewrite app_length, repeat_length.
  apply Nat.ltb_ge in E. lia.
Qed.

Lemma upd_bufs : forall (f : list (nat * nat * bool)) (mem : nat -> list byte) b d,
  ~ In b (map snd (map fst f)) ->
  Forall (fun x => outcome (fst (fst x)) (snd x) (mem (snd (fst x)))) f ->
  Forall (fun x => outcome (fst (fst x)) (snd x) (upd mem b d (snd (fst x)))) f.
Proof.
  intros f mem b d Hn H. rewrite Forall_forall in *. intros x Hx. rewrite upd_neq; [now apply H|].
  intros E. apply Hn. rewrite <- E. apply in_map. now apply in_map.
Qed.

Lemma finish_pending_ok : forall xs s data h,
  NoDup (map snd xs) ->
  (forall b, In b (map snd xs) -> ~ In b (map snd (map fst (q_finished s)))) ->
  Forall (fun x => outcome (fst (fst x)) (snd x) (q_mem s (snd (fst x)))) (q_finished s) ->
  Forall (fun x => map_get (s_map src) (fst x) = Some (SDigest h)) xs ->
  D (object_key h) (Some data) ->
  exists fin mem, finish_pending_request P src s xs data h = Ok (mk_asource (q_pending s) fin mem (q_gets s)) /\
    Forall (fun x => outcome (fst (fst x)) (snd x) (mem (snd (fst x)))) fin /\
    map fst fin = map fst (q_finished s) ++ xs /\
    (forall b, length (mem b) = length (q_mem s b)) /\
    (forall b, ~ In b (map snd xs) -> mem b = q_mem s b).
Proof.
  induction xs as [|[i b] xs IH]; intros s data h ND Nf Ff Fx Hd.
  - exists (q_finished s), (q_mem s). destruct s. cbn. rewrite app_nil_r. auto.
  - cbn [map snd] in ND. inversion ND as [|? ? Nb ND']; subst. inversion Fx as [|? ? Hi Fx']; subst. cbn [fst] in Hi.
    cbn [finish_pending_request].
    pose proof (finish_total P L (s_cipher src) (s_comp src) (s_ssc src) i data h (length (q_mem s b))) as NP.
    destruct (finish_stripe_fetch P (s_cipher src) (s_comp src) (s_ssc src) i data h (length (q_mem s b))) as [d|e|] eqn:Ef;
      [| |contradiction].
    + pose proof (finish_length _ _ _ _ _ Ef) as Ld.
      match goal with |- context [finish_pending_request P src ?t xs data h] => destruct (IH t data h ND') as (fin & mem & E & G1 & G2 & G3 & G4) end;
        cbn [q_finished q_mem q_pending q_gets] in *.
      * intros b' Hb'. rewrite !map_app, in_app_iff. cbn. intros [H|[H|[]]].
        -- apply (Nf b'); [now right|exact H].
        -- subst b'. contradiction.
      * apply Forall_app. split; [apply upd_bufs; [apply Nf; now left|exact Ff]|].
        constructor; [|constructor]. cbn [fst snd]. rewrite upd_eq. unfold outcome. rewrite Hi. exists (Some data).
        split; [exact Hd|]. cbn zeta. now rewrite Ld.
      * exact Fx'.
      * exact Hd.
      * exists fin, mem. rewrite E. split; [reflexivity|]. split; [exact G1|]. split; [rewrite G2, map_app, <- app_assoc; reflexivity|].
        split.
        -- intros b'. rewrite G3. unfold upd. destruct (b' =? b) eqn:Eb; [apply Nat.eqb_eq in Eb; subst; exact Ld|reflexivity].
        -- intros b' Hn. cbn [map snd In] in Hn. rewrite G4; [|tauto]. apply upd_neq. intros ->. apply Hn. now left.
    + match goal with |- context [finish_pending_request P src ?t xs data h] => destruct (IH t data h ND') as (fin & mem & E & G1 & G2 & G3 & G4) end;
        cbn [q_finished q_mem q_pending q_gets] in *.
      * intros b' Hb'. rewrite !map_app, in_app_iff. cbn. intros [H|[H|[]]].
        -- apply (Nf b'); [now right|exact H].
        -- subst b'. contradiction.
      * apply Forall_app. split; [exact Ff|]. constructor; [|constructor]. cbn [fst snd]. unfold outcome. rewrite Hi.
        exists (Some data). split; [exact Hd|]. cbn zeta. eauto.
      * exact Fx'.
      * exact Hd.
      * exists fin, mem. rewrite E. split; [reflexivity|]. split; [exact G1|]. split; [rewrite G2, map_app, <- app_assoc; reflexivity|].
        split; [exact G3|]. intros b' Hn. cbn [map snd In] in Hn. apply G4. tauto.
Qed.

Lemma take_pending_names : forall l n names, remove_name (map pr_name l) n = Some names ->
  exists p rest, take_pending l n = Some (p, rest) /\ pr_name p = n /\ names = map pr_name rest /\ Permutation l (p :: rest).
Proof.
  induction l as [|p l IH]; intros n names H; cbn [map remove_name] in H; [discriminate|]. cbn [take_pending].
  destruct (bytes_eqb (pr_name p) n) eqn:E.
  - injection H as <-. exists p, l. apply bytes_eqb_spec in E. auto.
  - destruct (remove_name (map pr_name l) n) as [r|] eqn:Er; [|discriminate]. injection H as <-.
    destruct (IH _ _ Er) as (q & rest & -> & Hn & -> & Hp). exists q, (p :: rest). repeat split; auto.
    rewrite Hp. apply perm_swap.
Qed.

Lemma flat_map_perm : forall {A B} (f : A -> list B) l l', Permutation l l' -> Permutation (flat_map f l) (flat_map f l').
Proof.
  intros A B f l l' H. induction H; cbn; auto.
  - now apply Permutation_app_head.
  - rewrite !app_assoc. apply Permutation_app_tail. apply Permutation_app_comm.
  - etransitivity; eauto.
Qed.

Lemma complete_ok : forall s c names, sinv s -> remove_name (map pr_name (q_pending s)) (fst c) = Some names ->
  D (fst c) (snd c) ->
  exists s1, q_complete P src s c = Ok s1 /\ sinv s1 /\ map pr_name (q_pending s1) = names /\ q_gets s1 = q_gets s /\
    Permutation (q_outstanding s1) (q_outstanding s) /\
    (forall b, length (q_mem s1 b) = length (q_mem s b)) /\
    (forall b, ~ In b (map snd (flat_map pr_stripes (q_pending s))) -> q_mem s1 b = q_mem s b).
Proof.
  intros s c names I H Hd. destruct (take_pending_names _ _ _ H) as (p & rest & Et & En & Enm & Pm).
  unfold q_complete. rewrite Et.
  pose proof (v_pending s I) as VP. rewrite Pm in VP. inversion VP as [|? ? Hp VP']; subst.
  destruct Hp as (Hn & Hl & Hb & Hne & Hx).
  pose proof (v_names s I) as VN. rewrite (Permutation_map pr_name Pm) in VN. inversion VN; subst.
  pose proof (v_bufs s I) as VB. unfold q_outstanding in VB.
  assert (PF : Permutation (flat_map pr_stripes (q_pending s)) (pr_stripes p ++ flat_map pr_stripes rest)).
  { apply (flat_map_perm pr_stripes) in Pm. exact Pm. }
  assert (PO : Permutation (q_outstanding s) (flat_map pr_stripes rest ++ (map fst (q_finished s) ++ pr_stripes p))).
  { unfold q_outstanding. rewrite PF, <- app_assoc. rewrite Permutation_app_comm. rewrite <- app_assoc. reflexivity. }
  pose proof (v_bufs s I) as VB2. rewrite (Permutation_map snd PO) in VB2.
  rewrite map_app in VB2. apply nodup_app_r in VB2. rewrite map_app in VB2.
  assert (ND : NoDup (map snd (pr_stripes p))) by (eapply nodup_app_r; exact VB2).
  assert (Dj : forall b, In b (map snd (pr_stripes p)) -> ~ In b (map snd (map fst (q_finished s)))).
  { intros b K1 K2. clear - VB2 K1 K2. induction (map snd (map fst (q_finished s))) as [|y ys IH]; [destruct K2|].
    cbn in VB2. inversion VB2 as [|? ? X1 X2]; subst. destruct K2 as [->|K2]; [|auto]. apply X1. apply in_or_app. now right. }
  assert (NB : NoDup (map snd (flat_map pr_stripes rest ++ (map fst (q_finished s) ++ pr_stripes p)))).
  { rewrite <- (Permutation_map snd PO). apply (v_bufs s I). }
  destruct (snd c) as [data|].
  - match goal with |- context [finish_pending_request P src ?t _ _ _] =>
      destruct (finish_pending_ok (pr_stripes p) t data (pr_sha p) ND) as (fin & mem & E & G1 & G2 & G3 & G4) end;
      cbn [q_finished q_mem q_pending q_gets] in *; auto.
    { apply (v_finished s I). }
    { rewrite <- Hn, En. exact Hd. }
    rewrite E. eexists. split; [reflexivity|]. cbn [q_pending q_gets q_mem q_finished].
    split; [|split; [reflexivity|split; [reflexivity|split; [|split; [exact G3|]]]]].
    + constructor; cbn [q_pending q_gets q_mem q_finished]; auto. unfold q_outstanding. cbn [q_pending q_finished]. now rewrite G2.
    + unfold q_outstanding at 1. cbn [q_pending q_finished]. rewrite G2. symmetry. exact PO.
    + intros b Hnb. apply G4. intros Hb'. apply Hnb. apply Permutation_in with (l := map snd (pr_stripes p ++ flat_map pr_stripes rest)).
      * apply Permutation_map. now symmetry.
      * rewrite map_app. apply in_or_app. now left.
  - assert (EM : map fst (q_finished s ++ map (fun x => (x, false)) (pr_stripes p)) = map fst (q_finished s) ++ pr_stripes p).
    { rewrite map_app, map_map. cbn. now rewrite map_id. }
    eexists. split; [reflexivity|]. cbn [q_pending q_gets q_mem q_finished].
    split; [|split; [reflexivity|split; [reflexivity|split; [|split; [reflexivity|reflexivity]]]]].
    + constructor; cbn [q_pending q_gets q_mem q_finished]; auto.
      * apply Forall_app. split; [apply (v_finished s I)|]. rewrite Forall_forall in *. intros x Hx'. apply in_map_iff in Hx'.
        destruct Hx' as ([i b] & <- & Hx'). cbn [fst snd]. apply Hx in Hx'. unfold outcome. cbn [fst] in Hx'. rewrite Hx'.
        exists None. split; [|reflexivity]. rewrite <- Hn, En. exact Hd.
      * unfold q_outstanding. cbn [q_pending q_finished]. now rewrite EM.
    + unfold q_outstanding at 1. cbn [q_pending q_finished]. rewrite EM. symmetry. exact PO.
Qed.

(** What the store delivers satisfies [D]. *)
Definition delivers (cs : list completion) : Prop := Forall (fun c => D (fst c) (snd c)) cs.

Lemma perm_pending_only : forall s s1, Permutation (q_outstanding s1) (q_outstanding s) -> forall b,
  In b (map snd (q_outstanding s1)) -> In b (map snd (q_outstanding s)).
Proof. intros s s1 H b. apply Permutation_in. now apply Permutation_map. Qed.

Lemma completes_ok : forall cs s names, sinv s -> answer_gets (map pr_name (q_pending s)) cs = Some names ->
  delivers cs ->
  exists s1, q_completes P src s cs = Ok s1 /\ sinv s1 /\ map pr_name (q_pending s1) = names /\ q_gets s1 = q_gets s /\
    Permutation (q_outstanding s1) (q_outstanding s) /\
    (forall b, length (q_mem s1 b) = length (q_mem s b)) /\
    (forall b, ~ In b (map snd (q_outstanding s)) -> q_mem s1 b = q_mem s b).
Proof.
  induction cs as [|c cs IH]; intros s names I H Hd; cbn [answer_gets q_completes] in *.
  - injection H as <-. exists s. repeat split; auto; apply I.
  - destruct (remove_name (map pr_name (q_pending s)) (fst c)) as [l|] eqn:Er; [|discriminate].
    inversion Hd; subst. destruct (complete_ok s c l I Er) as (s1 & E1 & I1 & N1 & G1 & P1 & L1 & M1); auto.
    rewrite E1. cbn [bindr]. rewrite <- N1 in H. destruct (IH s1 names I1 H) as (s2 & E2 & I2 & N2 & G2 & P2 & L2 & M2); auto.
    exists s2. split; [exact E2|]. split; [exact I2|]. split; [exact N2|]. split; [congruence|].
    split; [now rewrite P2|]. split; [intros b; now rewrite L2|]. intros b Hb. rewrite M2, M1; auto.
    + intros Hb'. apply Hb. unfold q_outstanding. rewrite map_app. apply in_or_app. now left.
    + intros Hb'. apply Hb. eapply perm_pending_only; eauto.
Qed.

Definition qinv (s : asource) : Prop := sinv s /\ q_gets s = map pr_name (q_pending s).

(** The effect of a poll. *)
Lemma poll_ok : forall s cs r, qinv s -> delivers cs -> q_poll P src s cs = Some r ->
  exists s1 out, r = Ok (s1, out) /\ qinv s1 /\ q_finished s1 = [] /\
    Permutation (map fst out ++ q_outstanding s1) (q_outstanding s) /\
    Forall (fun x => outcome (fst (fst x)) (snd x) (q_mem s1 (snd (fst x)))) out /\
    (forall b, length (q_mem s1 b) = length (q_mem s b)) /\
    (forall b, ~ In b (map snd (q_outstanding s)) -> q_mem s1 b = q_mem s b) /\
    answer_gets (q_gets s) cs = Some (q_gets s1).
Proof.
  intros s cs r [I G] Hd H. unfold q_poll in H. destruct (answer_gets (q_gets s) cs) as [gets|] eqn:Eg; [|discriminate].
  injection H as <-. rewrite G in Eg.
  set (s0 := mk_asource (q_pending s) (q_finished s) (q_mem s) gets).
  assert (I0 : sinv s0) by (destruct I; constructor; auto).
  destruct (completes_ok cs s0 gets I0 Eg Hd) as (s1 & E & I1 & N1 & G1 & P1 & L1 & M1). rewrite E. cbn [bindr].
  do 2 eexists. split; [reflexivity|]. cbn [q_pending q_finished q_mem q_gets] in *.
  split; [|split; [reflexivity|split; [|split; [apply I1|split; [exact L1|split; [exact M1|now rewrite G1]]]]]].
  - split; [|cbn [q_gets q_pending]; rewrite G1, N1; reflexivity]. destruct I1. constructor; cbn [q_pending q_finished q_mem]; auto.
    unfold q_outstanding in *. cbn [q_pending q_finished map] in *. rewrite app_nil_r.
    rewrite map_app in v_bufs0. now apply nodup_app_l in v_bufs0.
  - change (q_outstanding s) with (q_outstanding s0). rewrite <- P1. unfold q_outstanding. cbn [q_pending q_finished map].
    rewrite app_nil_r. apply Permutation_app_comm.
Qed.

(** The effect of a request. *)
Lemma join_ok : forall l name x,
  (exists l', join_pending l name x = Some l' /\ map pr_name l' = map pr_name l /\
     Permutation (flat_map pr_stripes l') (x :: flat_map pr_stripes l) /\
     forall (Q : pending -> Prop), Forall Q l ->
       (forall p, In p l -> Q p -> pr_name p = name -> Q (mk_pending (pr_name p) (pr_stripes p ++ [x]) (pr_sha p))) -> Forall Q l') \/
  (join_pending l name x = None /\ ~ In name (map pr_name l)).
Proof.
  induction l as [|p l IH]; intros name x; cbn [join_pending]; [right; auto|].
  destruct (bytes_eqb (pr_name p) name) eqn:E.
  - apply bytes_eqb_spec in E. left. eexists. split; [reflexivity|]. split; [reflexivity|]. split.
    + cbn. rewrite <- app_assoc. cbn. rewrite <- Permutation_middle. reflexivity.
    + intros Q H HQ. inversion H; subst. constructor; auto. apply HQ; auto. now left.
  - destruct (IH name x) as [(l' & -> & Hn & Hp & HQ)|[-> Hn]].
    + left. eexists. split; [reflexivity|]. cbn [map flat_map]. split; [now rewrite Hn|]. split.
      * rewrite Hp. symmetry. apply Permutation_middle.
      * intros Q H H2. inversion H; subst. constructor; auto. apply HQ; auto. intros q Hq. apply H2. now right.
    + right. split; [reflexivity|]. cbn. intros [H|H]; [|auto]. rewrite H, bytes_eqb_refl in E. discriminate.
Qed.

Lemma request_ok : forall s i b, qinv s -> ~ In b (map snd (q_outstanding s)) ->
  qinv (q_request src s i b) /\
  Permutation (q_outstanding (q_request src s i b)) ((i, b) :: q_outstanding s) /\
  (forall b', length (q_mem (q_request src s i b) b') = length (q_mem s b')) /\
  (forall b', b' <> b -> q_mem (q_request src s i b) b' = q_mem s b').
Proof.
  intros s i b [I G] Hb.
  assert (Z : (map_get (s_map src) i = None \/ map_get (s_map src) i = Some SZero) ->
     let s' := mk_asource (q_pending s) (q_finished s ++ [(i, b, true)]) (upd (q_mem s) b (repeat 0%N (length (q_mem s b)))) (q_gets s) in
     qinv s' /\ Permutation (q_outstanding s') ((i, b) :: q_outstanding s) /\
     (forall b', length (q_mem s' b') = length (q_mem s b')) /\
     (forall b', b' <> b -> q_mem s' b' = q_mem s b')).
  { intros Hm s'. assert (PO : Permutation (q_outstanding s') ((i, b) :: q_outstanding s)).
    { unfold q_outstanding, s'. cbn [q_pending q_finished]. rewrite map_app. cbn [map fst]. rewrite app_assoc.
      rewrite Permutation_app_comm. reflexivity. }
    split; [split; [|exact G]|split; [exact PO|split]].
    - constructor; cbn [s' q_pending q_finished q_mem]; try apply I.
      + apply Forall_app. split.
        * apply upd_bufs; [|apply I]. intros H. apply Hb. unfold q_outstanding. rewrite map_app. apply in_or_app. now right.
        * constructor; [|constructor]. cbn [fst snd]. rewrite upd_eq. unfold outcome. rewrite repeat_length.
          destruct Hm as [->| ->]; auto.
      + rewrite (Permutation_map snd PO). cbn. constructor; [exact Hb|apply I].
    - intros b'. cbn. unfold upd. destruct (b' =? b) eqn:E; [|reflexivity]. apply Nat.eqb_eq in E. subst. apply repeat_length.
    - intros b' H. cbn. now apply upd_neq. }
  unfold q_request. destruct (map_get (s_map src) i) as [[|h]|] eqn:Em; try (apply Z; auto; fail). clear Z.
  destruct (T i h Em) as [Hl Hok].
  unfold start_fetch_stripe. destruct (join_ok (q_pending s) (object_key h) (i, b)) as [(l' & -> & Hn & Hp & HQ)|[-> Hn]].
  - assert (PO : Permutation (q_outstanding (mk_asource l' (q_finished s) (q_mem s) (q_gets s))) ((i, b) :: q_outstanding s)).
    { unfold q_outstanding. cbn [q_pending q_finished]. rewrite Hp. reflexivity. }
    split; [split; [|cbn; now rewrite Hn]|split; [exact PO|split; reflexivity]].
    constructor; cbn [q_pending q_finished q_mem]; try apply I.
    + rewrite Hn. apply I.
    + apply HQ; [apply I|]. intros p _ (H1 & H2 & H3 & H4 & H5) En. cbn. split; [exact H1|]. split; [exact H2|]. split; [exact H3|].
      split; [intros X; apply app_eq_nil in X; destruct X; discriminate|]. apply Forall_app. split; [exact H5|].
      constructor; [|constructor]. cbn. rewrite Em. do 2 f_equal. rewrite H1 in En. apply object_key_inj in En; auto.
    + rewrite (Permutation_map snd PO). cbn. constructor; [exact Hb|apply I].
  - assert (PO : Permutation (q_outstanding (mk_asource (q_pending s ++ [mk_pending (object_key h) [(i, b)] h]) (q_finished s) (q_mem s) (q_gets s ++ [object_key h]))) ((i, b) :: q_outstanding s)).
    { unfold q_outstanding. cbn [q_pending q_finished]. rewrite flat_map_app. cbn. rewrite <- app_assoc. cbn.
      rewrite <- Permutation_middle. reflexivity. }
    split; [split; [|cbn; rewrite map_app, G; reflexivity]|split; [exact PO|split; reflexivity]].
    constructor; cbn [q_pending q_finished q_mem]; try apply I.
    + rewrite map_app. cbn. rewrite Permutation_app_comm. cbn. constructor; [exact Hn|apply I].
    + apply Forall_app. split; [apply I|]. constructor; [|constructor]. cbn. split; [reflexivity|]. split; [exact Hl|]. split; [exact Hok|].
      split; [discriminate|]. constructor; [exact Em|constructor].
    + rewrite (Permutation_map snd PO). cbn. constructor; [exact Hb|apply I].
Qed.

Lemma qinv_new : forall mem, qinv (q_new mem).
Proof. intros mem. split; [|reflexivity]. constructor; cbn; constructor. Qed.

(** Each name outstanding at the store has a request waiting for it. *)
Lemma gets_waiting : forall s n, qinv s -> In n (q_gets s) ->
  exists p i b h, In p (q_pending s) /\ pr_name p = n /\ In (i, b) (pr_stripes p) /\
    map_get (s_map src) i = Some (SDigest h) /\ n = object_key h.
Proof.
  intros s n [I G] H. rewrite G in H. apply in_map_iff in H. destruct H as (p & <- & Hp).
  pose proof (v_pending s I) as V. rewrite Forall_forall in V. destruct (V p Hp) as (H1 & H2 & H3 & H4 & H5).
  destruct (pr_stripes p) as [|[i b] r] eqn:E; [contradiction|]. exists p, i, b, (pr_sha p).
  inversion H5; subst. cbn in *. rewrite E. cbn. auto.
Qed.

End Source.
