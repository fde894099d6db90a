(** Proofs about merging configuration files. *)
From Coq Require Import List NArith Bool String Ascii Permutation.
From Verif Require Import Base BaseFacts IncludesModel IncludesSpec.
Import ListNotations.
Local Open Scope string_scope.

Section value_ind.
  Variable P : value -> Prop.
  Hypothesis Hleaf : forall x, P (VLeaf x).
  Hypothesis Htable : forall t, Forall (fun kv => P (snd kv)) t -> P (VTable t).
  Fixpoint value_rect' (v : value) : P v :=
    match v with
    | VLeaf x => Hleaf x
    | VTable t => Htable t ((fix go t : Forall (fun kv => P (snd kv)) t :=
        match t with [] => Forall_nil _ | kv :: t' => Forall_cons kv (value_rect' (snd kv)) (go t') end) t)
    end.
End value_ind.

(** * Association lists *)

Lemma eqb_neq' : forall a b, String.eqb a b = false <-> a <> b.
Proof. intros. apply String.eqb_neq. Qed.

Lemma get_in : forall k t v, get k t = Some v -> In (k, v) t.
Proof.
  induction t as [|[k' v'] t IH]; cbn; intros v H; [discriminate|].
  destruct (String.eqb_spec k k'); [injection H as <-; subst; auto|right; auto].
Qed.

Lemma get_none : forall k t, get k t = None <-> (forall v, ~ In (k, v) t).
Proof.
  induction t as [|[k' v'] t IH]; cbn; [split; auto|].
  destruct (String.eqb_spec k k') as [->|Hn].
  - split; [discriminate|]. intros H. exfalso. apply (H v'). auto.
  - rewrite IH. split; intros H v.
    + intros [E|Hi]; [injection E as <- <-; congruence|apply (H v Hi)].
    + intros Hi. apply (H v). auto.
Qed.

Lemma get_nodup : forall k t v, NoDup (map fst t) -> In (k, v) t -> get k t = Some v.
Proof.
  induction t as [|[k' v'] t IH]; cbn; intros v Hnd Hin; [contradiction|].
  inversion Hnd as [|? ? Hnotin Hnd']; subst.
  destruct Hin as [E|Hin].
  - injection E as -> ->. now rewrite String.eqb_refl.
  - destruct (String.eqb_spec k k') as [->|Hn]; [|auto].
    exfalso. apply Hnotin. apply in_map_iff. exists (k', v). auto.
Qed.

Lemma get_put : forall k k' v t,
  get k (put k' v t) = if String.eqb k k' then Some v else get k t.
Proof.
  induction t as [|[k2 v2] t IH]; cbn.
  - reflexivity.
  - destruct (String.eqb_spec k' k2) as [->|Hn]; cbn.
    + destruct (String.eqb k k2); reflexivity.
    + rewrite IH. destruct (String.eqb_spec k k2) as [->|]; [|reflexivity].
      destruct (String.eqb_spec k2 k'); [congruence|reflexivity].
Qed.

Lemma get_remove : forall k k' t,
  get k (remove k' t) = if String.eqb k k' then None else get k t.
Proof.
  induction t as [|[k2 v2] t IH]; cbn.
  - now destruct (String.eqb k k').
  - destruct (String.eqb_spec k' k2) as [->|Hn]; cbn.
    + rewrite IH. destruct (String.eqb k k2); reflexivity.
    + rewrite IH. destruct (String.eqb_spec k k2) as [->|]; [|reflexivity].
      destruct (String.eqb_spec k2 k'); [congruence|reflexivity].
Qed.

Lemma in_keys_put : forall k k' v t, In k (map fst (put k' v t)) -> k = k' \/ In k (map fst t).
Proof.
  induction t as [|[k2 v2] t IH]; cbn; [intuition|].
  destruct (String.eqb_spec k' k2); cbn; intuition.
Qed.

Lemma nodup_put : forall k v t, NoDup (map fst t) -> NoDup (map fst (put k v t)).
Proof.
  induction t as [|[k2 v2] t IH]; cbn; intros H.
  - constructor; [easy|constructor].
  - inversion H; subst.
    destruct (String.eqb_spec k k2) as [->|Hn]; cbn; constructor; auto.
    intros Hin. destruct (in_keys_put _ _ _ _ Hin); auto.
Qed.

Lemma forall_put : forall (P : value -> Prop) k v t,
  P v -> Forall (fun kv => P (snd kv)) t -> Forall (fun kv => P (snd kv)) (put k v t).
Proof.
  induction t as [|[k2 v2] t IH]; cbn; intros Hv H.
  - constructor; auto.
  - inversion H; subst. destruct (String.eqb k k2); constructor; auto.
Qed.

Lemma in_remove : forall k v k' t, In (k, v) (remove k' t) <-> In (k, v) t /\ k <> k'.
Proof.
  induction t as [|[k2 v2] t IH]; cbn; [tauto|].
  destruct (String.eqb_spec k' k2) as [->|Hn]; cbn; rewrite IH.
  - split; [tauto|]. intros [[E|H] Hk]; [injection E as -> ->; congruence|auto].
  - split; [|tauto]. intros [E|H]; [injection E as -> ->; auto|tauto].
Qed.

Lemma wf_put : forall k v t, wf v -> wf (VTable t) -> wf (VTable (put k v t)).
Proof.
  intros k v t Hv Ht. inversion Ht; subst. constructor; [apply nodup_put; auto|].
  apply (forall_put wf); auto.
Qed.

Lemma wf_get : forall k t v, wf (VTable t) -> get k t = Some v -> wf v.
Proof.
  intros k t v Ht Hg. inversion Ht as [|? Hnd Hf]; subst.
  rewrite Forall_forall in Hf. apply (Hf (k, v)). now apply get_in.
Qed.

Lemma wf_tail : forall kv t, wf (VTable (kv :: t)) -> wf (VTable t) /\ wf (snd kv) /\ get (fst kv) t = None.
Proof.
  intros [k v] t H. inversion H as [|? Hnd Hf]; subst. cbn in Hnd.
  inversion Hnd; inversion Hf; subst. repeat split; auto.
  - constructor; auto.
  - cbn. apply get_none. intros v' Hin. apply H2. apply in_map_iff. exists (k, v'). auto.
Qed.

Lemma wf_remove : forall k t, wf (VTable t) -> wf (VTable (remove k t)).
Proof.
  induction t as [|[k2 v2] t IH]; intros H; [exact H|].
  destruct (wf_tail _ _ H) as (Ht & Hv & Hg). cbn in *.
  destruct (String.eqb_spec k k2); [auto|].
  specialize (IH Ht). inversion IH; subst. constructor; cbn.
  - constructor; auto. intros Hin. apply in_map_iff in Hin. destruct Hin as ([k3 v3] & E & Hin).
    cbn in E. subst. apply in_remove in Hin. apply (proj1 (get_none _ _) Hg v3). tauto.
  - constructor; auto.
Qed.

(** * What a value says, as a function *)

Fixpoint look (v : value) (p : list string) : option node :=
  match p, v with
  | [], VLeaf x => Some (NLeaf x)
  | [], VTable _ => Some NTable
  | k :: p', VTable t => match get k t with Some v' => look v' p' | None => None end
  | _ :: _, VLeaf _ => None
  end.

Lemma says_look : forall v p n, wf v -> (says v p n <-> look v p = Some n).
Proof.
  intros v p. revert v. induction p as [|k p IH]; intros v n Hwf.
  - split; intros H.
    + inversion H; reflexivity.
    + destruct v; cbn in H; injection H as <-; constructor.
  - split; intros H.
    + inversion H as [| |t k' v' p' n' Hin Hs]; subst.
      cbn. inversion Hwf; subst. rewrite (get_nodup k t v') by auto.
      apply IH; auto. apply (wf_get k t); auto. apply get_nodup; auto.
    + destruct v as [x|t]; cbn in H; [discriminate|].
      destruct (get k t) as [v'|] eqn:E; [|discriminate].
      apply (says_below t k v'); [now apply get_in|]. apply IH; auto. eapply wf_get; eauto.
Qed.

Lemma look_nil_table : forall t, look (VTable t) [] = Some NTable.
Proof. reflexivity. Qed.

(** Conflict in terms of [look]. *)
Definition clash (na nb : node) : Prop := ~ (na = NTable /\ nb = NTable).

Lemma conflict_look : forall a b, wf a -> wf b ->
  (conflict a b <-> exists p na nb, look a p = Some na /\ look b p = Some nb /\ clash na nb).
Proof.
  intros a b Ha Hb. split; intros (p & na & nb & H1 & H2 & H3);
    exists p, na, nb; repeat split; auto; now apply says_look.
Qed.

(** * One merge *)

(** The outcome for one key. *)
Definition comb (b a : option value) : option value :=
  match b, a with
  | None, _ => a
  | Some _, None => b
  | Some (VTable tb), Some (VTable ta) =>
      match merge_into (VTable ta) tb with Ok m => Some (VTable m) | _ => None end
  | Some _, Some _ => None
  end.
Definition combok (b a : option value) : bool :=
  match b, a with
  | None, _ | _, None => true
  | Some (VTable tb), Some (VTable ta) => is_ok (merge_into (VTable ta) tb)
  | Some _, Some _ => false
  end.

Lemma merge_cons : forall k v rest base,
  merge_into (VTable ((k, v) :: rest)) base =
  match get k base, v with
  | Some (VTable b), VTable _ =>
      let! b' := merge_into v b in merge_into (VTable rest) (put k (VTable b') base)
  | Some (VTable _), VLeaf _ => Err 1
  | Some (VLeaf _), VTable _ => Err 1
  | Some (VLeaf _), VLeaf _ => Err 2
  | None, _ => merge_into (VTable rest) (put k v base)
  end.
Proof. reflexivity. Qed.

Lemma merge_keys : forall kvs base, NoDup (map fst kvs) ->
  match merge_into (VTable kvs) base with
  | Ok m => (forall k, combok (get k base) (get k kvs) = true) /\
            (forall k, get k m = comb (get k base) (get k kvs))
  | _ => exists k, combok (get k base) (get k kvs) = false
  end.
Proof.
  induction kvs as [|[k v] rest IH]; intros base Hnd.
  - cbn. split; intros k; now destruct (get k base) as [[]|].
  - cbn in Hnd. inversion Hnd as [|? ? Hni Hnd']; subst.
    assert (Hr : get k rest = None).
    { apply get_none. intros v' Hin. apply Hni. apply in_map_iff. exists (k, v'). auto. }
    assert (Hgo : forall w, (comb (get k base) (Some v) = Some w) ->
              combok (get k base) (Some v) = true ->
       match merge_into (VTable rest) (put k w base) with
       | Ok m => (forall k0, combok (get k0 base) (get k0 ((k, v) :: rest)) = true) /\
            (forall k0, get k0 m = comb (get k0 base) (get k0 ((k, v) :: rest)))
       | _ => exists k0, combok (get k0 base) (get k0 ((k, v) :: rest)) = false
       end).
    { intros w Hw Hok. specialize (IH (put k w base) Hnd').
      assert (Hbad : (exists k0, combok (get k0 (put k w base)) (get k0 rest) = false) ->
                     exists k0, combok (get k0 base) (get k0 ((k, v) :: rest)) = false).
      { intros (k0 & H). exists k0. rewrite get_put in H. cbn [get].
        destruct (String.eqb_spec k0 k) as [E|Hn]; [|exact H].
        rewrite E, Hr in H. destruct w; discriminate. }
      destruct (merge_into (VTable rest) (put k w base)) as [m|t|]; auto.
      destruct IH as [H1 H2]. split; intros k0.
      - specialize (H1 k0). rewrite get_put in H1. cbn [get].
        destruct (String.eqb_spec k0 k) as [E|Hn]; [rewrite E|]; auto.
      - rewrite H2, get_put. cbn [get]. destruct (String.eqb_spec k0 k) as [E|Hn]; [|reflexivity].
        rewrite E, Hr, Hw. now destruct w. }
    assert (Hself : get k ((k, v) :: rest) = Some v) by (cbn; now rewrite String.eqb_refl).
    rewrite merge_cons.
    destruct (get k base) as [[x|b]|] eqn:Eb.
    + assert (Hx : exists k0, combok (get k0 base) (get k0 ((k, v) :: rest)) = false).
      { exists k. now rewrite Hself, Eb. }
      destruct v; exact Hx.
    + destruct v as [x|a].
      * exists k. now rewrite Hself, Eb.
      * destruct (merge_into (VTable a) b) as [b'|t|] eqn:Em; unfold bindr.
        -- apply Hgo; unfold comb, combok; rewrite Em; reflexivity.
        -- exists k. rewrite Hself, Eb. unfold combok. now rewrite Em.
        -- exists k. rewrite Hself, Eb. unfold combok. now rewrite Em.
    + apply Hgo; reflexivity.
Qed.

Lemma merge_wf : forall add base m, wf add -> wf (VTable base) ->
  merge_into add base = Ok m -> wf (VTable m).
Proof.
  induction add as [x|kvs IH] using value_rect'; intros base m Hwf Hb H.
  - cbn in H. injection H as <-. auto.
  - revert base Hb H. induction kvs as [|[k v] rest IHr]; intros base Hb H.
    + cbn in H. injection H as <-. auto.
    + destruct (wf_tail _ _ Hwf) as (Hrest & Hv & _). cbn in Hv.
      inversion IH as [|? ? IHv IHrest]; subst. cbn in IHv.
      specialize (IHr IHrest Hrest).
      rewrite merge_cons in H.
      destruct (get k base) as [[x|b]|] eqn:Eb.
      * destruct v; discriminate.
      * destruct v as [x|a]; [discriminate|].
        destruct (merge_into (VTable a) b) as [b'|t|] eqn:Em; cbn [bindr] in H; try discriminate.
        apply (IHr (put k (VTable b') base)); auto.
        apply wf_put; auto. apply (IHv b); auto. exact (wf_get _ _ _ Hb Eb).
      * apply (IHr (put k v base)); auto. apply wf_put; auto.
Qed.

(** No clash, and the result says what either says. *)
Definition first_some (a b : option node) : option node :=
  match a with Some _ => a | None => b end.

Lemma merge_look : forall add base m, wf add -> wf (VTable base) -> (exists t, add = VTable t) ->
  merge_into add base = Ok m ->
  (forall p, look (VTable m) p = first_some (look (VTable base) p) (look add p)) /\
  (forall p na nb, look (VTable base) p = Some na -> look add p = Some nb -> na = NTable /\ nb = NTable).
Proof.
  induction add as [x|kvs IH] using value_rect'; intros base m Hwf Hb [t Ht] H; [discriminate|].
  clear t Ht. inversion Hwf as [|? Hnd Hf]; subst.
  pose proof (merge_keys kvs base Hnd) as K. rewrite H in K. destruct K as [K1 K2].
  assert (Hsub : forall k tb ta, get k base = Some (VTable tb) -> get k kvs = Some (VTable ta) ->
      exists m', get k m = Some (VTable m') /\
      (forall p, look (VTable m') p = first_some (look (VTable tb) p) (look (VTable ta) p)) /\
      (forall p na nb, look (VTable tb) p = Some na -> look (VTable ta) p = Some nb ->
         na = NTable /\ nb = NTable)).
  { intros k tb ta Eb Ea. specialize (K1 k). specialize (K2 k).
    rewrite Eb, Ea in K1, K2. unfold combok in K1. unfold comb in K2.
    destruct (merge_into (VTable ta) tb) as [m'|?|] eqn:Em; try discriminate.
    exists m'. split; [auto|].
    rewrite Forall_forall in IH. apply (IH (k, VTable ta) (get_in _ _ _ Ea)); auto.
    - exact (wf_get _ _ _ Hwf Ea).
    - exact (wf_get _ _ _ Hb Eb).
    - now exists ta. }
  split.
  - intros [|k p]; [reflexivity|]. cbn [look].
    specialize (Hsub k). specialize (K1 k). specialize (K2 k).
    destruct (get k base) as [[x|tb]|] eqn:Eb; destruct (get k kvs) as [[y|ta]|] eqn:Ea;
      try discriminate K1.
    + rewrite K2. cbn. now destruct (look (VLeaf x) p).
    + destruct (Hsub _ _ eq_refl eq_refl) as (m' & Hm & Hl & _). rewrite Hm. apply Hl.
    + rewrite K2. cbn [comb]. now destruct (look (VTable tb) p).
    + rewrite K2. reflexivity.
    + rewrite K2. reflexivity.
    + rewrite K2. reflexivity.
  - intros [|k p] na nb Hna Hnb.
    + cbn in Hna, Hnb. injection Hna as <-. injection Hnb as <-. auto.
    + cbn [look] in Hna, Hnb. specialize (Hsub k). specialize (K1 k).
      destruct (get k base) as [[x|tb]|] eqn:Eb; destruct (get k kvs) as [[y|ta]|] eqn:Ea;
        try discriminate.
      destruct (Hsub _ _ eq_refl eq_refl) as (m' & Hm & _ & Hc). apply (Hc p); auto.
Qed.

Lemma merge_fail : forall add base, wf add -> wf (VTable base) -> (exists t, add = VTable t) ->
  is_ok (merge_into add base) = false ->
  exists p na nb, look (VTable base) p = Some na /\ look add p = Some nb /\ clash na nb.
Proof.
  induction add as [x|kvs IH] using value_rect'; intros base Hwf Hb [t Ht] H; [discriminate|].
  clear t Ht. inversion Hwf as [|? Hnd Hf]; subst.
  pose proof (merge_keys kvs base Hnd) as K.
  destruct (merge_into (VTable kvs) base) as [m|tg|]; [discriminate| |];
  (destruct K as [k Hk];
   destruct (get k base) as [[x|tb]|] eqn:Eb; destruct (get k kvs) as [[y|ta]|] eqn:Ea;
   try discriminate Hk;
   [exists [k], (NLeaf x), (NLeaf y)|exists [k], (NLeaf x), NTable|exists [k], NTable, (NLeaf y)|]).
  all: try (cbn; rewrite Eb, Ea; repeat split; auto; intros [? ?]; discriminate).
  all: rewrite Forall_forall in IH;
    destruct (IH (k, VTable ta) (get_in _ _ _ Ea) tb) as (p & na & nb & H1 & H2 & H3);
    [exact (wf_get _ _ _ Hwf Ea)|exact (wf_get _ _ _ Hb Eb)|now exists ta|exact Hk|];
    exists (k :: p), na, nb; cbn [look]; rewrite Eb, Ea; auto.
Qed.

Lemma merge_no_panic : forall add base, merge_into add base <> Panic.
Proof.
  induction add as [x|kvs IH] using value_rect'; [discriminate|].
  induction kvs as [|[k v] rest IHr]; intros base; [discriminate|].
  inversion IH as [|? ? IHv IHrest]; subst. cbn in IHv. specialize (IHr IHrest).
  rewrite merge_cons.
  destruct (get k base) as [[x|b]|] eqn:Eb.
  - destruct v; discriminate.
  - destruct v as [x|a]; [discriminate|].
    destruct (merge_into (VTable a) b) as [b'|t|] eqn:Em; cbn [bindr]; try discriminate; auto.
    now apply IHv in Em.
  - apply IHr.
Qed.

(** * Include entries *)

Lemma strip_append : forall p, strip_question (p ++ "?") = Some p.
Proof.
  induction p as [|c p IH]; [reflexivity|].
  cbn [append strip_question]. rewrite IH.
  destruct (p ++ "?") eqn:E; [|reflexivity].
  destruct p; discriminate.
Qed.

Lemma strip_some : forall s p, strip_question s = Some p -> s = p ++ "?".
Proof.
  induction s as [|c s IH]; intros p H; [discriminate|].
  cbn [strip_question] in H. destruct s as [|c' s'].
  - destruct (Ascii.eqb_spec c "?"); [injection H as <-; subst; reflexivity|discriminate].
  - destruct (strip_question (String c' s')) as [q|]; [|discriminate].
    injection H as <-. cbn. f_equal. now apply IH.
Qed.

Lemma strip_none : forall s, strip_question s = None -> forall q, s <> q ++ "?".
Proof. intros s H q ->. rewrite strip_append in H. discriminate. Qed.

Lemma names_strip : forall s p o, names s p o <->
  match strip_question s with Some p' => p = p' /\ o = true | None => p = s /\ o = false end.
Proof.
  intros s p o. split.
  - intros H. inversion H as [path|path Hn]; subst.
    + now rewrite strip_append.
    + destruct (strip_question p) as [q|] eqn:E; auto.
      exfalso. apply (Hn q). now apply strip_some.
  - destruct (strip_question s) as [q|] eqn:E; intros [-> ->].
    + rewrite (strip_some _ _ E). constructor.
    + constructor. now apply strip_none.
Qed.

Lemma validate_acceptable : forall path,
  is_ok (validate_include_path path) = true <-> acceptable path.
Proof.
  intros path. unfold validate_include_path, acceptable.
  assert (Hs : starts_with_slash path = true <-> exists r, path = "/" ++ r).
  { destruct path as [|c r]; cbn.
    - split; [discriminate|intros (r & H); discriminate].
    - destruct (Ascii.eqb_spec c "/") as [->|Hn].
      + split; [intros _; now exists r|auto].
      + split; [discriminate|intros (r' & H); cbn in H; injection H as -> ->; congruence]. }
  assert (He : existsb (String.eqb "..") (pieces path) = true <-> In ".." (pieces path)).
  { rewrite existsb_exists. split.
    - intros (x & Hin & Hx). apply String.eqb_eq in Hx. now subst.
    - intros Hin. exists "..". split; auto. }
  destruct (blank path); [cbn; intuition discriminate|].
  destruct (starts_with_slash path).
  { cbn. split; [discriminate|]. intros (_ & H & _). destruct (proj1 Hs eq_refl) as [r Hr].
    exfalso. now apply (H r). }
  destruct (existsb (String.eqb "..") (pieces path)).
  { cbn. split; [discriminate|]. intros (_ & _ & H). exfalso. apply H. tauto. }
  cbn. split; auto. intros _. repeat split.
  - intros r Hr. assert (false = true) by (apply Hs; now exists r). discriminate.
  - intros Hin. assert (false = true) by tauto. discriminate.
Qed.

Lemma validate_no_panic : forall p, validate_include_path p <> Panic.
Proof.
  intros p. unfold validate_include_path.
  destruct (blank p); [discriminate|]. destruct (starts_with_slash p); [discriminate|].
  destruct (existsb _ _); discriminate.
Qed.

Lemma parse_entry_ok : forall s e, parse_entry s = Ok e <->
  names s (e_path e) (e_optional e) /\ acceptable (e_path e).
Proof.
  intros s e. rewrite names_strip, <- validate_acceptable. unfold parse_entry.
  destruct (strip_question s) as [q|].
  - destruct (validate_include_path q) as [u|t|] eqn:E; cbn [bindr].
    + split.
      * intros H. injection H as <-. cbn. rewrite E. auto.
      * intros ((Hp & Ho) & _). destruct e as [ep eo]; cbn in *; subst. reflexivity.
    + split; [discriminate|]. intros ((Hp & Ho) & H). rewrite Hp, E in H. discriminate.
    + split; [discriminate|]. intros ((Hp & Ho) & H). rewrite Hp, E in H. discriminate.
  - destruct (validate_include_path s) as [u|t|] eqn:E; cbn [bindr].
    + split.
      * intros H. injection H as <-. cbn. rewrite E. auto.
      * intros ((Hp & Ho) & _). destruct e as [ep eo]; cbn in *; subst. reflexivity.
    + split; [discriminate|]. intros ((Hp & Ho) & H). rewrite Hp, E in H. discriminate.
    + split; [discriminate|]. intros ((Hp & Ho) & H). rewrite Hp, E in H. discriminate.
Qed.

Lemma parse_entry_no_panic : forall s, parse_entry s <> Panic.
Proof.
  intros s. unfold parse_entry. destruct (strip_question s) as [q|].
  - pose proof (validate_no_panic q). destruct (validate_include_path q); cbn; congruence.
  - pose proof (validate_no_panic s). destruct (validate_include_path s); cbn; congruence.
Qed.

Lemma parse_entries_ok : forall l es, parse_entries l = Ok es <->
  Forall2 (fun s e => parse_entry s = Ok e) l es.
Proof.
  induction l as [|s l IH]; intros es; cbn [parse_entries].
  - split; intros H; [injection H as <-; constructor|inversion H; reflexivity].
  - destruct (parse_entry s) as [e|t|] eqn:E; cbn [bindr].
    + destruct (parse_entries l) as [es'|t|] eqn:El; cbn [bindr].
      * split; intros H.
        -- injection H as <-. constructor; auto. now apply IH.
        -- inversion H; subst. rewrite E in H2. injection H2 as <-.
           apply IH in H4. injection H4 as <-. reflexivity.
      * split; [discriminate|]. intros H. inversion H; subst. apply IH in H4. discriminate.
      * split; [discriminate|]. intros H. inversion H; subst. apply IH in H4. discriminate.
    + split; [discriminate|]. intros H. inversion H; subst. congruence.
    + split; [discriminate|]. intros H. inversion H; subst. congruence.
Qed.

Lemma parse_entries_no_panic : forall l, parse_entries l <> Panic.
Proof.
  induction l as [|s l IH]; cbn [parse_entries]; [discriminate|].
  pose proof (parse_entry_no_panic s).
  destruct (parse_entry s); cbn [bindr]; try congruence.
  destruct (parse_entries l); cbn [bindr]; congruence.
Qed.

(** * The include loop *)

(** The files the loop goes through. *)
Inductive opened (fs : string -> file) : list entry -> list table -> Prop :=
| op_nil : opened fs [] []
| op_skip e es ts : fs (e_path e) = FMissing -> e_optional e = true ->
    opened fs es ts -> opened fs (e :: es) ts
| op_file e es t ts : fs (e_path e) = FTable t -> get "include" t = None ->
    opened fs es ts -> opened fs (e :: es) (t :: ts).

(** Looking a path up in a list of tables: the first that has it. *)
Fixpoint look_all (ts : list table) (p : list string) : option node :=
  match ts with [] => None | t :: ts' => first_some (look (VTable t) p) (look_all ts' p) end.

Definition agree (a b : table) : Prop :=
  forall p na nb, look (VTable a) p = Some na -> look (VTable b) p = Some nb ->
    na = NTable /\ nb = NTable.

Lemma agree_sym : forall a b, agree a b -> agree b a.
Proof. intros a b H p na nb Ha Hb. destruct (H p nb na Hb Ha); auto. Qed.

Lemma include_all_ok : forall fs, fs_wf fs -> forall es root m, wf (VTable root) ->
  include_all fs es root = Ok m ->
  exists ts, opened fs es ts /\ ForallOrdPairs agree (root :: ts) /\ wf (VTable m) /\
    forall p, look (VTable m) p = look_all (root :: ts) p.
Proof.
  intros fs Hfs. induction es as [|e es IH]; intros root m Hr H; cbn [include_all] in H.
  - injection H as <-. exists []. repeat split.
    + constructor.
    + constructor; constructor.
    + auto.
    + intros p. cbn [look_all]. now destruct (look (VTable root) p).
  - destruct (fs (e_path e)) as [| | |t] eqn:Ef; try discriminate.
    + destruct (e_optional e) eqn:Eo; [|discriminate].
      destruct (IH root m Hr H) as (ts & H1 & H2 & H3 & H4).
      exists ts. repeat split; auto. now apply op_skip.
    + destruct (get "include" t) eqn:Eg; [discriminate|].
      unfold merge_tables in H.
      destruct (merge_into (VTable t) root) as [r'|?|] eqn:Em; cbn [bindr] in H; try discriminate.
      pose proof (Hfs _ _ Ef) as Ht.
      pose proof (merge_wf _ _ _ Ht Hr Em) as Hr'.
      destruct (merge_look _ _ _ Ht Hr (ex_intro _ t eq_refl) Em) as [Hl Hc].
      destruct (IH r' m Hr' H) as (ts & H1 & H2 & H3 & H4).
      exists (t :: ts). repeat split; auto.
      * now apply op_file.
      * inversion H2 as [|? ? Hfa Hop]; subst.
        assert (Hboth : forall x, agree r' x -> agree root x /\ agree t x).
        { intros x Hx. split; intros p na nb Ha Hb.
          - apply (Hx p na nb); auto. rewrite Hl, Ha. reflexivity.
          - destruct (look (VTable root) p) as [nr|] eqn:Er.
            + destruct (Hc p nr na Er Ha) as [-> ->].
              destruct (Hx p NTable nb); auto. rewrite Hl, Er. reflexivity.
            + apply (Hx p na nb); auto. rewrite Hl, Er. exact Ha. }
        constructor.
        -- constructor; [exact Hc|]. rewrite Forall_forall in *. intros x Hx. now apply Hboth, Hfa.
        -- constructor; auto. rewrite Forall_forall in *. intros x Hx. now apply Hboth, Hfa.
      * intros p. rewrite H4. cbn [look_all]. rewrite Hl.
        destruct (look (VTable root) p); reflexivity.
Qed.

Lemma opened_wf : forall fs, fs_wf fs -> forall es ts, opened fs es ts ->
  Forall (fun t => wf (VTable t)) ts.
Proof. intros fs Hfs es ts H. induction H as [|e es ts Hf Ho H IH|e es t ts Hf Hg H IH]; auto.
  constructor; [exact (Hfs _ _ Hf)|auto]. Qed.

Lemma include_all_complete : forall fs, fs_wf fs -> forall es ts, opened fs es ts ->
  forall root, wf (VTable root) -> ForallOrdPairs agree (root :: ts) ->
  is_ok (include_all fs es root) = true.
Proof.
  intros fs Hfs es ts Ho. induction Ho as [|e es ts Ef Eo Ho IH|e es t ts Ef Eg Ho IH];
    intros root Hr Hag; cbn [include_all].
  - reflexivity.
  - rewrite Ef, Eo. auto.
  - rewrite Ef, Eg. unfold merge_tables.
    pose proof (Hfs _ _ Ef) as Ht.
    inversion Hag as [|? ? Hfa Hop]; subst. inversion Hfa as [|? ? Hrt Hrs]; subst.
    inversion Hop as [|? ? Hts Hop']; subst.
    destruct (is_ok (merge_into (VTable t) root)) eqn:Eok.
    + destruct (merge_into (VTable t) root) as [r'|?|] eqn:Em; try discriminate. cbn [bindr].
      destruct (merge_look _ _ _ Ht Hr (ex_intro _ t eq_refl) Em) as [Hl Hc].
      apply IH; [exact (merge_wf _ _ _ Ht Hr Em)|].
      constructor; auto. rewrite Forall_forall in *. intros x Hx p na nb Ha Hb.
      rewrite Hl in Ha. unfold first_some in Ha.
      destruct (look (VTable root) p) eqn:Er.
      * injection Ha as ->. now apply (Hrs x Hx p).
      * now apply (Hts x Hx p).
    + exfalso.
      destruct (merge_fail _ _ Ht Hr (ex_intro _ t eq_refl) Eok) as (p & na & nb & H1 & H2 & H3).
      apply H3. now apply (Hrt p).
Qed.

Lemma opened_det : forall fs es ts ts', opened fs es ts -> opened fs es ts' -> ts = ts'.
Proof.
  intros fs es ts ts' H. revert ts'. induction H; intros ts' H'; inversion H'; subst; auto; try congruence.
  f_equal; [congruence|auto].
Qed.

Lemma include_all_no_panic : forall fs es root, include_all fs es root <> Panic.
Proof.
  induction es as [|e es IH]; intros root; cbn [include_all]; [discriminate|].
  destruct (fs (e_path e)); try discriminate.
  - destruct (e_optional e); [apply IH|discriminate].
  - destruct (get "include" t); [discriminate|]. unfold merge_tables.
    pose proof (merge_no_panic (VTable t) root).
    destruct (merge_into (VTable t) root); cbn [bindr]; [apply IH|discriminate|congruence].
Qed.

(** [loads] is parsing followed by [opened]. *)
Lemma loads_opened : forall fs l files, loads fs l files <->
  exists es ts, parse_entries l = Ok es /\ opened fs es ts /\ files = map VTable ts.
Proof.
  intros fs l. induction l as [|s l IH]; intros files.
  - split; intros H.
    + inversion H; subst. exists [], []. repeat split. constructor.
    + destruct H as (es & ts & Hp & Ho & ->). cbn in Hp. injection Hp as <-.
      inversion Ho; subst. constructor.
  - split; intros H.
    + inversion H as [|s' path l' fs' Hn Ha Hf Hl|s' path o t l' fs' Hn Ha Hf Hi Hl]; subst.
      * apply IH in Hl. destruct Hl as (es & ts & Hp & Ho & ->).
        exists ({| e_path := path; e_optional := true |} :: es), ts. split; [|split; auto].
        -- apply parse_entries_ok. constructor; [apply parse_entry_ok; auto|now apply parse_entries_ok].
        -- apply op_skip; auto.
      * apply IH in Hl. destruct Hl as (es & ts & Hp & Ho & ->).
        exists ({| e_path := path; e_optional := o |} :: es), (t :: ts). split; [|split; auto].
        -- apply parse_entries_ok. constructor; [apply parse_entry_ok; auto|now apply parse_entries_ok].
        -- apply op_file; auto. now apply get_none.
    + destruct H as (es & ts & Hp & Ho & ->).
      apply parse_entries_ok in Hp. inversion Hp as [|? e ? es' He Hes]; subst.
      apply parse_entry_ok in He. destruct He as [Hn Ha].
      apply parse_entries_ok in Hes.
      inversion Ho as [|? ? ? Hf Hopt Ho'|? ? t ts' Hf Hg Ho']; subst.
      * rewrite Hopt in Hn. apply (loads_skip fs s (e_path e)); auto.
        apply IH. exists es', ts. auto.
      * apply (loads_file fs s (e_path e) (e_optional e)); auto.
        -- now apply get_none.
        -- apply IH. exists es', ts'. auto.
Qed.

Lemma include_list_parse : forall t l, wf (VTable t) -> include_list (VTable t) l ->
  parse_include_array (VTable t) = parse_entries l.
Proof.
  intros t l Hwf H. inversion H as [t' Ha|t' l' Hin]; subst; cbn [parse_include_array].
  - rewrite (proj2 (get_none _ _) Ha). reflexivity.
  - inversion Hwf; subst. rewrite (get_nodup _ _ _ H1 Hin). reflexivity.
Qed.

Lemma include_list_ex : forall t es, parse_include_array (VTable t) = Ok es ->
  exists l, include_list (VTable t) l /\ parse_entries l = Ok es.
Proof.
  intros t es H. cbn [parse_include_array] in H.
  destruct (get "include" t) as [[[l|c]|?]|] eqn:E; try discriminate.
  - exists l. split; auto. apply il_present. now apply get_in.
  - exists []. split; auto. apply il_absent. now apply get_none.
Qed.

Lemma look_remove : forall t p n, wf (VTable t) ->
  (look (VTable (remove "include" t)) p = Some n <-> own_says (VTable t) p n).
Proof.
  intros t p n Hwf. unfold own_says. rewrite says_look by auto.
  destruct p as [|k p]; [cbn; intuition discriminate|].
  cbn [look hd_error]. rewrite get_remove.
  destruct (String.eqb_spec k "include") as [->|Hn].
  - split; [discriminate|]. intros [_ H]. congruence.
  - split; [|tauto]. intros H. split; auto. congruence.
Qed.

Lemma agree_conflict : forall a b, wf (VTable a) -> wf (VTable b) ->
  (agree a b <-> ~ conflict (VTable a) (VTable b)).
Proof.
  intros a b Ha Hb. rewrite conflict_look by auto. split.
  - intros H (p & na & nb & H1 & H2 & H3). apply H3. now apply (H p).
  - intros H p na nb H1 H2.
    destruct na as [|x], nb as [|y]; auto; exfalso; apply H;
    [exists p, NTable, (NLeaf y)|exists p, (NLeaf x), NTable|exists p, (NLeaf x), (NLeaf y)];
    repeat split; auto; intros [? ?]; discriminate.
Qed.

Lemma agree_own : forall t b, wf (VTable t) -> wf (VTable b) ->
  (agree (remove "include" t) b <-> ~ conflict_own (VTable t) (VTable b)).
Proof.
  intros t b Ht Hb. split.
  - intros H (p & na & nb & H1 & H2 & H3). apply H3. apply (H p); [now apply look_remove|].
    now apply says_look.
  - intros H p na nb H1 H2. apply look_remove in H1; auto. apply says_look in H2; auto.
    destruct na as [|x], nb as [|y]; auto; exfalso; apply H;
    [exists p, NTable, (NLeaf y)|exists p, (NLeaf x), NTable|exists p, (NLeaf x), (NLeaf y)];
    repeat split; auto; try apply H1; intros [? ?]; discriminate.
Qed.

Lemma ford_map : forall (P : table -> table -> Prop) (Q : value -> value -> Prop) ts,
  Forall (fun t => wf (VTable t)) ts ->
  (forall a b, wf (VTable a) -> wf (VTable b) -> (P a b <-> Q (VTable a) (VTable b))) ->
  (ForallOrdPairs P ts <-> ForallOrdPairs Q (map VTable ts)).
Proof.
  intros P Q ts Hwf HPQ. induction ts as [|t ts IH]; cbn.
  - split; constructor.
  - inversion Hwf; subst. specialize (IH H2). split; intros H; inversion H as [|? ? Hf Ho]; subst;
      constructor; try (apply IH; assumption).
    + rewrite Forall_forall in *. intros x Hx. apply in_map_iff in Hx. destruct Hx as (y & <- & Hy).
      apply HPQ; auto.
    + rewrite Forall_forall in *. intros x Hx. apply HPQ; auto. apply Hf. now apply in_map.
Qed.

(** When the tables pairwise agree, what the list says does not depend on its
    order. *)
Lemma look_all_in : forall ts p n, ForallOrdPairs agree ts ->
  (look_all ts p = Some n <-> exists t, In t ts /\ look (VTable t) p = Some n).
Proof.
  induction ts as [|t ts IH]; intros p n Hag; cbn [look_all].
  - split; [discriminate|intros (t & [] & _)].
  - inversion Hag as [|? ? Hf Ho]; subst. specialize (IH p n Ho). unfold first_some.
    destruct (look (VTable t) p) as [nt|] eqn:Et.
    + split.
      * intros H. injection H as ->. exists t. cbn. auto.
      * intros (t' & [<-|Hin] & Hl); [congruence|].
        rewrite Forall_forall in Hf. destruct (Hf t' Hin p nt n Et Hl) as [-> ->]. reflexivity.
    + rewrite IH. split; intros (t' & Hin & Hl); exists t'; cbn; [auto|].
      destruct Hin as [<-|Hin]; [congruence|auto].
Qed.

(** * Walking an acceptable path *)

Lemma walk_down : forall ps at_, ~ In ".." ps -> exists down, walk at_ ps = Some (down ++ at_)%list.
Proof.
  induction ps as [|p ps IH]; intros at_ Hn; cbn [walk].
  - now exists [].
  - assert (Hps : ~ In ".." ps) by (intros H; apply Hn; right; auto).
    destruct (String.eqb p "" || String.eqb p ".")%bool; [auto|].
    destruct (String.eqb_spec p "..") as [->|_]; [exfalso; apply Hn; left; auto|].
    destruct (IH (p :: at_) Hps) as [d Hd]. exists (d ++ [p])%list. rewrite Hd.
    now rewrite <- app_assoc.
Qed.
