(** Reading the sections against what they mean. *)
From Coq Require Import String List NArith ZArith Bool Lia ZifyBool ZifyN.
From Verif Require Import Base IncludesModel SecretsModel ConfigModel SectionsModel SectionsSpec.
Import ListNotations.
Local Open Scope string_scope.

(** ** Tables *)
Lemma get_In k v t : NoDup (map fst t) -> (get k t = Some v <-> In (k, v) t).
Proof.
  induction t as [|[k' v'] t IH]; intros Hn; cbn [get In map fst] in *; [split; [discriminate|tauto]|].
  inversion Hn as [|? ? Hk Hn']; subst. destruct (String.eqb_spec k k') as [->|Hne].
  - split; [intros [= ->]; now left|]. intros [[= <-]|Hin]; [reflexivity|].
    exfalso. apply Hk. apply in_map_iff. now exists (k', v).
  - rewrite (IH Hn'). split; [now right|]. intros [[= <- _]|Hin]; [now elim Hne|assumption].
Qed.

Lemma wf_get t k v : wf (VTable t) -> get k t = Some v -> wf v.
Proof.
  intros H Hg. inversion H as [|? Hn Hf]; subst. apply get_In in Hg; [|exact Hn].
  rewrite Forall_forall in Hf. exact (Hf _ Hg).
Qed.

Lemma wf_nodup t : wf (VTable t) -> NoDup (map fst t).
Proof. intros H. now inversion H. Qed.

Lemma get_remove_same s t : get s (remove s t) = None.
Proof.
  induction t as [|[k v] t IH]; [reflexivity|]. cbn [remove].
  destruct (String.eqb s k) eqn:E; [exact IH|]. cbn [get]. now rewrite E.
Qed.

Lemma get_remove k s t : k <> s -> get k (remove s t) = get k t.
Proof.
  intros Hne. induction t as [|[k' v] t IH]; [reflexivity|]. cbn [remove get].
  destruct (String.eqb_spec s k') as [->|Hs].
  - rewrite IH. destruct (String.eqb_spec k k') as [->|]; [now elim Hne|reflexivity].
  - cbn [get]. now rewrite IH.
Qed.

Lemma In_remove k v s t : In (k, v) (remove s t) <-> In (k, v) t /\ k <> s.
Proof.
  induction t as [|[k' v'] t IH]; cbn [remove In]; [tauto|].
  destruct (String.eqb_spec s k') as [->|Hs]; cbn [In]; rewrite IH.
  - split; [tauto|]. intros [[[= -> ->]|H] Hne]; [now elim Hne|tauto].
  - split; [intros [[= -> ->]|H]; [split; [now left|congruence]|tauto]|tauto].
Qed.

Lemma wf_remove s t : wf (VTable t) -> wf (VTable (remove s t)).
Proof.
  intros H. inversion H as [|? Hn Hf]; subst. constructor.
  - clear Hf H. induction t as [|[k v] t IH]; cbn [remove map fst]; [constructor|].
    inversion Hn as [|? ? Hk Hn']; subst. destruct (String.eqb s k); [exact (IH Hn')|].
    cbn [map fst]. constructor; [|exact (IH Hn')].
    intros Hin. apply Hk. apply in_map_iff in Hin as ([a b] & E & Hin). cbn [fst] in E. subst a.
    apply In_remove in Hin as [Hin _]. apply in_map_iff. now exists (k, b).
  - apply Forall_forall. intros [k v] Hin. apply In_remove in Hin as [Hin _].
    rewrite Forall_forall in Hf. exact (Hf _ Hin).
Qed.

(** ** Paths *)
Lemma stands_cons t k p u : wf (VTable t) ->
  (stands (VTable t) (k :: p) u <-> exists v, get k t = Some v /\ stands v p u).
Proof.
  intros Hw. pose proof (wf_nodup _ Hw) as Hn. split.
  - intros H. inversion H as [|? ? v ? ? Hin Hs]; subst. exists v. split; [now apply get_In|exact Hs].
  - intros (v & Hg & Hs). econstructor; [apply get_In; eassumption|exact Hs].
Qed.

Lemma stands_nil v u : stands v [] u <-> u = v.
Proof. split; [intros H; inversion H; reflexivity|intros ->; constructor]. Qed.

Lemma stands_one t k u : wf (VTable t) -> (stands (VTable t) [k] u <-> get k t = Some u).
Proof.
  intros Hw. rewrite stands_cons by exact Hw. split.
  - intros (v & Hg & Hs). apply stands_nil in Hs. now subst.
  - intros Hg. exists u. split; [exact Hg|constructor].
Qed.

Lemma absent_one t k : wf (VTable t) -> (absent (VTable t) [k] <-> get k t = None).
Proof.
  intros Hw. unfold absent. split.
  - intros H. destruct (get k t) as [v|] eqn:E; [|reflexivity]. elim (H v). now apply stands_one.
  - intros H u Hs. apply stands_one in Hs; [congruence|exact Hw].
Qed.

Lemma absent_cons t k p : wf (VTable t) ->
  (absent (VTable t) (k :: p) <-> forall v, get k t = Some v -> absent v p).
Proof.
  intros Hw. unfold absent. split.
  - intros H v Hg u Hs. apply (H u). apply stands_cons; [exact Hw|]. now exists v.
  - intros H u Hs. apply stands_cons in Hs as (v & Hg & Hs); [|exact Hw]. exact (H v Hg u Hs).
Qed.

Lemma stands_leaf_nil l p u : stands (VLeaf l) p u -> p = [] /\ u = VLeaf l.
Proof. intros H. inversion H; subst. auto. Qed.

(** ** Nothing else is written *)
Fixpoint tails (k : string) (paths : list (list string)) : list (list string) :=
  match paths with
  | [] => []
  | (h :: q) :: r => if String.eqb k h then q :: tails k r else tails k r
  | [] :: r => tails k r
  end.

Lemma tails_In k q ps : In q (tails k ps) <-> In (k :: q) ps.
Proof.
  induction ps as [|[|h r] ps IH]; cbn [tails In]; [tauto|rewrite IH; intuition discriminate|].
  destruct (String.eqb_spec k h) as [->|Hne]; cbn [In]; rewrite IH.
  - split; [intros [<-|H]; [now left|now right]|intros [[= ->]|H]; [now left|now right]].
  - split; [tauto|]. intros [[= -> _]|H]; [now elim Hne|exact H].
Qed.

Lemma only_leaf l ps : only (VLeaf l) ps <-> In [] ps.
Proof.
  unfold only. split.
  - intros [H _]. apply (H [] l). constructor.
  - intros H. split.
    + intros p x Hs. apply stands_leaf_nil in Hs as [-> _]. exact H.
    + intros p t Hs. apply stands_leaf_nil in Hs as [_ E]. discriminate.
Qed.

Lemma only_table t ps : wf (VTable t) ->
  (only (VTable t) ps <->
   (exists q, q <> [] /\ In q ps) /\ forall k v, get k t = Some v -> only v (tails k ps)).
Proof.
  intros Hw. unfold only. split.
  - intros [Hl Ht]. split; [apply (Ht [] t); constructor|].
    intros k v Hg. split.
    + intros p x Hs. apply tails_In. apply (Hl (k :: p) x). apply stands_cons; [exact Hw|]. now exists v.
    + intros p t' Hs. destruct (Ht (k :: p) t') as (q & Hq & Hin).
      { apply stands_cons; [exact Hw|]. now exists v. }
      exists q. split; [exact Hq|]. apply tails_In. exact Hin.
  - intros [(q0 & Hq0 & Hin0) H]. split.
    + intros [|k p] x Hs; [apply stands_nil in Hs; discriminate|].
      apply stands_cons in Hs as (v & Hg & Hs); [|exact Hw].
      apply tails_In. now apply (proj1 (H k v Hg)) in Hs.
    + intros [|k p] t' Hs; [now exists q0|].
      apply stands_cons in Hs as (v & Hg & Hs); [|exact Hw].
      apply (proj2 (H k v Hg)) in Hs as (q & Hq & Hin). exists q. split; [exact Hq|].
      apply tails_In in Hin. exact Hin.
Qed.

Lemma only_single v : only v [[]] <-> exists l, v = VLeaf l.
Proof.
  split.
  - intros [_ Ht]. destruct v as [l|t]; [now exists l|].
    destruct (Ht [] t) as (q & Hq & [E|[]]); [constructor|]. cbn in E. now elim Hq.
  - intros (l & ->). apply only_leaf. now left.
Qed.

Lemma only_nothing v : ~ only v [].
Proof.
  intros [Hl Ht]. destruct v as [l|t]; [exact (Hl [] l (stands_here _))|].
  destruct (Ht [] t (stands_here _)) as (q & _ & []).
Qed.

Lemma known_spec ks t : known ks t = Ok tt <-> forall k v, In (k, v) t -> In k ks.
Proof.
  unfold known. destruct (forallb _ t) eqn:E.
  - split; [|reflexivity]. intros _ k v Hin. rewrite forallb_forall in E. specialize (E _ Hin).
    cbn [fst] in E. apply existsb_exists in E as (k' & Hk & He). apply String.eqb_eq in He. now subst.
  - split; [discriminate|]. intros H. exfalso.
    assert (forallb (fun kv : string * value => existsb (String.eqb (fst kv)) ks) t = true); [|congruence].
    apply forallb_forall. intros [k v] Hin. cbn [fst]. apply existsb_exists. exists k.
    split; [exact (H k v Hin)|apply String.eqb_refl].
Qed.

Lemma known_get ks t : wf (VTable t) -> (known ks t = Ok tt <-> forall k v, get k t = Some v -> In k ks).
Proof.
  intros Hw. rewrite known_spec. pose proof (wf_nodup _ Hw) as Hn.
  split; intros H k v Hg; apply (H k v); now apply get_In.
Qed.

(** The first keys of the documented paths. *)
Definition heads_in (ks : list string) (ps : list (list string)) : bool :=
  forallb (fun p => match p with k :: _ => existsb (String.eqb k) ks | [] => false end) ps.

Lemma only_known ks ps t : wf (VTable t) -> heads_in ks ps = true ->
  only (VTable t) ps -> known ks t = Ok tt.
Proof.
  intros Hw Hh Ho. apply known_get; [exact Hw|]. intros k v Hg.
  apply (only_table t ps Hw) in Ho as [_ Ho]. specialize (Ho k v Hg).
  destruct (tails k ps) as [|q r] eqn:E; [now apply only_nothing in Ho|].
  assert (Hin : In (k :: q) ps) by (apply tails_In; rewrite E; now left).
  unfold heads_in in Hh. rewrite forallb_forall in Hh. specialize (Hh _ Hin). cbn in Hh.
  apply existsb_exists in Hh as (k' & Hk & He). apply String.eqb_eq in He. now subst.
Qed.

Lemma only_remove s l t ps : wf (VTable t) -> get s t = Some (VLeaf l) ->
  (exists q, q <> [] /\ In q ps) -> tails s ps = [] ->
  (only (VTable (remove s t)) ps <-> only (VTable t) ([s] :: ps)).
Proof.
  intros Hw Hg Hne Ht. rewrite !only_table by auto using wf_remove. split.
  - intros [_ H]. split; [exists [s]; split; [discriminate|now left]|].
    intros k v Hk. cbn [tails]. destruct (String.eqb_spec k s) as [->|Hks].
    + rewrite Hg in Hk. injection Hk as <-. apply only_leaf. now left.
    + apply H. now rewrite get_remove.
  - intros [_ H]. split; [exact Hne|]. intros k v Hk.
    destruct (String.eqb_spec k s) as [->|Hks]; [rewrite get_remove_same in Hk; discriminate|].
    rewrite get_remove in Hk by exact Hks. specialize (H k v Hk). cbn [tails] in H.
    destruct (String.eqb_spec k s); [now elim Hks|exact H].
Qed.

Section Parse.
Variable atom_of : leaf -> atom.
Notation required := (required atom_of).
Notation optional := (optional atom_of).
Notation defaulted := (defaulted atom_of).
Notation secret_optional := (secret_optional atom_of).

(** ** Values that are no tables *)
Definition scalar {X} (p : value -> res X) (R : atom -> X -> Prop) : Prop :=
  forall v x, p v = Ok x <-> exists l, v = VLeaf l /\ R (atom_of l) x.

Lemma scalar_str : scalar (p_str atom_of) is_str.
Proof.
  intros v x. unfold p_str, is_str. destruct v as [l|t].
  - split; [destruct (atom_of l) eqn:E; try discriminate; intros [= <-]; now exists l|].
    intros (l' & [= <-] & ->). reflexivity.
  - split; [discriminate|intros (l & E & _); discriminate].
Qed.

Lemma scalar_bool : scalar (p_bool atom_of) is_bool.
Proof.
  intros v x. unfold p_bool, is_bool. destruct v as [l|t].
  - split; [destruct (atom_of l) eqn:E; try discriminate; intros [= <-]; now exists l|].
    intros (l' & [= <-] & ->). reflexivity.
  - split; [discriminate|intros (l & E & _); discriminate].
Qed.

Lemma to_uint_ok bits z n :
  to_uint bits z = Ok n <-> z = Z.of_N n /\ (n < 2 ^ bits)%N.
Proof.
  unfold to_uint. pose proof (N2Z.inj_pow 2 bits) as Hp. change (Z.of_N 2) with 2%Z in Hp.
  destruct ((0 <=? z) && (z <? 2 ^ Z.of_N bits))%Z eqn:E.
  - split; [intros [= <-]; lia|]. intros [-> H]. now rewrite N2Z.id.
  - split; [discriminate|]. intros [-> H]. exfalso. lia.
Qed.

Lemma scalar_uint bits :
  scalar (p_uint atom_of bits) (fun a n => a = AInt (Z.of_N n) /\ (n < 2 ^ bits)%N).
Proof.
  intros v x. unfold p_uint. destruct v as [l|t].
  - split.
    + destruct (atom_of l) eqn:E; try discriminate. intros H. apply to_uint_ok in H as [-> H].
      exists l. now rewrite E.
    + intros (l' & [= <-] & -> & H). now apply to_uint_ok.
  - split; [discriminate|intros (l & E & _); discriminate].
Qed.

Lemma scalar_u64 : scalar (p_uint atom_of 64) is_u64.
Proof. exact (scalar_uint 64). Qed.
Lemma scalar_u32 : scalar (p_uint atom_of 32) is_u32.
Proof. exact (scalar_uint 32). Qed.

Lemma to_uints_ok zs ns :
  to_uints zs = Ok ns <-> zs = map Z.of_N ns /\ Forall (fun n => n < 18446744073709551616)%N ns.
Proof.
  revert ns; induction zs as [|z zs IH]; intros ns; cbn [to_uints].
  - split; [intros [= <-]; split; [reflexivity|constructor]|].
    intros [H _]. destruct ns; [reflexivity|discriminate].
  - split.
    + destruct (to_uint 64 z) as [n|?|] eqn:E; cbn [bindr]; try discriminate.
      destruct (to_uints zs) as [r|?|] eqn:Er; cbn [bindr]; try discriminate. intros [= <-].
      apply to_uint_ok in E as [-> Hn]. destruct (proj1 (IH r) eq_refl) as [-> Hr].
      split; [reflexivity|]. constructor; [exact Hn|exact Hr].
    + intros [H Hf]. destruct ns as [|n r]; [discriminate|]. cbn [map] in H. injection H as -> Hz.
      inversion Hf as [|? ? Hn Hr]; subst.
      rewrite (proj2 (to_uint_ok 64 (Z.of_N n) n)) by (split; [reflexivity|exact Hn]). cbn [bindr].
      rewrite (proj2 (IH r)) by (split; [reflexivity|exact Hr]). reflexivity.
Qed.

Lemma scalar_u64s : scalar (p_uints atom_of) is_u64s.
Proof.
  intros v x. unfold p_uints, is_u64s. destruct v as [l|t].
  - split.
    + destruct (atom_of l) eqn:E; try discriminate. intros H. apply to_uints_ok in H as [-> H].
      exists l. now rewrite E.
    + intros (l' & [= <-] & -> & H). now apply to_uints_ok.
  - split; [discriminate|intros (l & E & _); discriminate].
Qed.

Lemma scalar_engine : scalar (p_engine atom_of) is_engine.
Proof.
  intros v x. unfold p_engine, is_engine. split.
  - destruct (p_str atom_of v) as [s|?|] eqn:E; cbn [bindr]; try discriminate.
    apply scalar_str in E as (l & -> & E). intros H. exists l. split; [reflexivity|].
    unfold is_str in E. rewrite E.
    destruct (String.eqb_spec s "io_uring") as [->|]; [injection H as <-; reflexivity|].
    destruct (String.eqb_spec s "sync") as [->|]; [injection H as <-; reflexivity|discriminate].
  - intros (l & -> & E).
    rewrite (proj2 (scalar_str (VLeaf l) _) (ex_intro _ l (conj eq_refl E))). now destruct x.
Qed.

Lemma scalar_encoding : scalar (p_encoding atom_of) is_encoding.
Proof.
  intros v x. unfold p_encoding, is_encoding. split.
  - destruct (p_str atom_of v) as [s|?|] eqn:E; cbn [bindr]; try discriminate.
    apply scalar_str in E as (l & -> & E). intros H. exists l. split; [reflexivity|].
    unfold is_str in E. rewrite E.
    destruct (String.eqb_spec s "plaintext") as [->|]; [injection H as <-; reflexivity|].
    destruct (String.eqb_spec s "base64") as [->|]; [injection H as <-; reflexivity|discriminate].
  - intros (l & -> & E).
    rewrite (proj2 (scalar_str (VLeaf l) _) (ex_intro _ l (conj eq_refl E))). now destruct x.
Qed.

(** ** Fields *)
Lemma required_cons {X} t k p (R : atom -> X -> Prop) x : wf (VTable t) ->
  (required (VTable t) (k :: p) R x <-> exists v, get k t = Some v /\ required v p R x).
Proof.
  intros Hw. unfold SectionsSpec.required. split.
  - intros (l & Hs & HR). apply stands_cons in Hs as (v & Hg & Hs); [|exact Hw]. exists v. eauto.
  - intros (v & Hg & l & Hs & HR). exists l. split; [|exact HR]. apply stands_cons; [exact Hw|]. eauto.
Qed.

Lemma required_nil {X} v (R : atom -> X -> Prop) x :
  required v [] R x <-> exists l, v = VLeaf l /\ R (atom_of l) x.
Proof.
  unfold SectionsSpec.required. split.
  - intros (l & Hs & HR). apply stands_nil in Hs. exists l. split; [now symmetry|exact HR].
  - intros (l & -> & HR). exists l. split; [constructor|exact HR].
Qed.

Lemma req_scalar {X} p (R : atom -> X -> Prop) k t x : wf (VTable t) -> scalar p R ->
  (req k p t = Ok x <-> required (VTable t) [k] R x).
Proof.
  intros Hw Hp. rewrite required_cons by exact Hw. unfold req. split.
  - destruct (get k t) as [v|]; [|discriminate]. intros H. exists v. split; [reflexivity|].
    apply required_nil. now apply Hp.
  - intros (v & -> & H). apply Hp. now apply required_nil.
Qed.

Lemma opt_scalar {X} p (R : atom -> X -> Prop) k t o : wf (VTable t) -> scalar p R ->
  (opt k p t = Ok o <-> optional (VTable t) [k] R o).
Proof.
  intros Hw Hp. unfold opt, SectionsSpec.optional. destruct o as [x|].
  - rewrite <- (req_scalar p R k t x Hw Hp). unfold req.
    destruct (get k t) as [v|]; [|split; discriminate].
    destruct (p v); cbn [bindr]; split; intros H; try discriminate; injection H as ->; reflexivity.
  - rewrite absent_one by exact Hw. destruct (get k t) as [v|]; [|split; reflexivity].
    destruct (p v); cbn [bindr]; split; discriminate.
Qed.

Lemma dft_scalar {X} p (R : atom -> X -> Prop) k d t x : wf (VTable t) -> scalar p R ->
  (dft k p d t = Ok x <-> defaulted (VTable t) [k] R d x).
Proof.
  intros Hw Hp. unfold dft, SectionsSpec.defaulted.
  rewrite <- (req_scalar p R k t x Hw Hp), absent_one by exact Hw. unfold req.
  destruct (get k t) as [v|].
  - split; [now left|]. intros [H|[H _]]; [exact H|discriminate].
  - split; [intros [= ->]; now right|]. intros [H|[_ ->]]; [discriminate|reflexivity].
Qed.

Lemma required_leaf {X} t k (R : atom -> X -> Prop) x v : wf (VTable t) ->
  required (VTable t) [k] R x -> get k t = Some v -> only v [[]].
Proof.
  intros Hw H Hg. apply required_cons in H as (v' & Hg' & H); [|exact Hw].
  rewrite Hg in Hg'. injection Hg' as <-. apply required_nil in H as (l & -> & _).
  apply only_single. now exists l.
Qed.
Lemma optional_leaf {X} t k (R : atom -> X -> Prop) o v : wf (VTable t) ->
  optional (VTable t) [k] R o -> get k t = Some v -> only v [[]].
Proof.
  intros Hw H Hg. unfold SectionsSpec.optional in H. destruct o; [now apply (required_leaf t k R x)|].
  apply absent_one in H; [congruence|exact Hw].
Qed.
Lemma defaulted_leaf {X} t k (R : atom -> X -> Prop) d x v : wf (VTable t) ->
  defaulted (VTable t) [k] R d x -> get k t = Some v -> only v [[]].
Proof.
  intros Hw [H|[H _]] Hg; [now apply (required_leaf t k R x)|].
  apply absent_one in H; [congruence|exact Hw].
Qed.

(** ** References *)
Lemma p_ref_ok v x : wf v -> (p_ref atom_of v = Ok x <-> required v ["ref"] is_str x /\ only v [["ref"]]).
Proof.
  intros Hw. unfold p_ref, p_variant. split.
  - destruct v as [l|[|[k u] [|? ?]]]; cbn [bindr]; try discriminate.
    destruct (String.eqb_spec k "ref") as [->|]; [|discriminate]. intros H.
    apply scalar_str in H as (l & -> & H). split.
    + apply required_cons; [exact Hw|]. exists (VLeaf l). split; [reflexivity|].
      apply required_nil. now exists l.
    + apply only_table; [exact Hw|]. split; [exists ["ref"]; split; [discriminate|now left]|].
      intros k v Hg. cbn [get] in Hg. destruct (String.eqb_spec k "ref") as [->|]; [|discriminate].
      injection Hg as <-. apply only_leaf. now left.
  - intros [Hr Ho]. destruct v as [l|t]; [apply only_leaf in Ho; destruct Ho as [E|[]]; discriminate|].
    apply required_cons in Hr as (u & Hg & Hr); [|exact Hw].
    assert (Hk := only_known ["ref"] [["ref"]] t Hw eq_refl Ho). rewrite known_spec in Hk.
    pose proof (wf_nodup _ Hw) as Hn.
    destruct t as [|[k1 u1] [|[k2 u2] t]]; [discriminate| |].
    + cbn [get] in Hg. destruct (String.eqb_spec "ref" k1) as [<-|]; [|discriminate].
      injection Hg as ->. cbn [bindr]. change (String.eqb "ref" "ref") with true. cbn match.
      apply scalar_str. now apply required_nil.
    + exfalso. destruct (Hk k1 u1 (or_introl eq_refl)) as [E1|[]].
      destruct (Hk k2 u2 (or_intror (or_introl eq_refl))) as [E2|[]]. subst.
      inversion Hn as [|? ? H _]; subst. apply H. now left.
Qed.

Lemma req_ref k t x : wf (VTable t) ->
  (req k (p_ref atom_of) t = Ok x <->
   required (VTable t) [k; "ref"] is_str x /\ forall v, get k t = Some v -> only v [["ref"]]).
Proof.
  intros Hw. rewrite required_cons by exact Hw. unfold req. split.
  - destruct (get k t) as [v|] eqn:E; [|discriminate]. intros H.
    apply p_ref_ok in H as [H1 H2]; [|exact (wf_get _ _ _ Hw E)].
    split; [now exists v|]. intros v' [= <-]. exact H2.
  - intros [(v & Hg & H1) H2]. rewrite Hg. apply p_ref_ok; [exact (wf_get _ _ _ Hw Hg)|].
    split; [exact H1|now apply H2].
Qed.

Lemma opt_ref k t o : wf (VTable t) ->
  (opt k (p_ref atom_of) t = Ok o <->
   secret_optional (VTable t) k o /\ forall v, get k t = Some v -> only v [["ref"]]).
Proof.
  intros Hw. unfold opt, SectionsSpec.secret_optional. destruct o as [x|].
  - rewrite <- (req_ref k t x Hw). unfold req. destruct (get k t) as [v|]; [|split; discriminate].
    destruct (p_ref atom_of v); cbn [bindr]; split; intros H; try discriminate; injection H as ->; reflexivity.
  - rewrite absent_one by exact Hw. destruct (get k t) as [v|].
    + split; [|intros [H _]; discriminate]. destruct (p_ref atom_of v); cbn [bindr]; discriminate.
    + split; [|reflexivity]. intros _. split; [reflexivity|]. discriminate.
Qed.

(** ** Sections *)
Lemma bindr_ok {A B} (e : res A) (f : A -> res B) y :
  bindr e f = Ok y <-> exists x, e = Ok x /\ f x = Ok y.
Proof.
  destruct e; cbn [bindr]; split; intros H.
  - eauto.
  - destruct H as (x & [= ->] & H). exact H.
  - discriminate.
  - destruct H as (x & H & _). discriminate.
  - discriminate.
  - destruct H as (x & H & _). discriminate.
Qed.

Ltac unbind :=
  repeat match goal with
  | H : bindr _ _ = Ok _ |- _ => apply bindr_ok in H as (? & ? & ?)
  | H : Ok _ = Ok _ |- _ => injection H as H; subst
  | u : unit |- _ => destruct u
  end.

(** The parsers of values, as the statements of the fields. *)
Ltac scal := first [ exact scalar_str | exact scalar_bool | exact scalar_u64 | exact scalar_u32
                   | exact scalar_u64s | exact scalar_engine | exact scalar_encoding ].
Ltac meanings Hw :=
  repeat match goal with
  | H : req _ (p_ref _) _ = Ok _ |- _ => apply (req_ref _ _ _ Hw) in H as [? ?]
  | H : opt _ (p_ref _) _ = Ok _ |- _ => apply (opt_ref _ _ _ Hw) in H as [? ?]
  | H : req _ _ _ = Ok _ |- _ => eapply (req_scalar _ _ _ _ _ Hw) in H; [|scal]
  | H : opt _ _ _ = Ok _ |- _ => eapply (opt_scalar _ _ _ _ _ Hw) in H; [|scal]
  | H : dft _ _ _ _ = Ok _ |- _ => eapply (dft_scalar _ _ _ _ _ _ Hw) in H; [|scal]
  end.
(** Back: rewrite every field with its value. *)
Ltac parsed Hw :=
  repeat match goal with
  | |- bindr (req ?k ?p ?t) _ = _ =>
      erewrite (proj2 (req_scalar p _ k t _ Hw ltac:(scal))) by eassumption; cbn [bindr]
  | |- bindr (opt ?k ?p ?t) _ = _ =>
      erewrite (proj2 (opt_scalar p _ k t _ Hw ltac:(scal))) by eassumption; cbn [bindr]
  | |- bindr (dft ?k ?p ?d ?t) _ = _ =>
      erewrite (proj2 (dft_scalar p _ k d t _ Hw ltac:(scal))) by eassumption; cbn [bindr]
  | |- bindr (req ?k (p_ref _) ?t) _ = _ =>
      erewrite (proj2 (req_ref k t _ Hw)) by (split; [eassumption|eauto]); cbn [bindr]
  | |- bindr (opt ?k (p_ref _) ?t) _ = _ =>
      erewrite (proj2 (opt_ref k t _ Hw)) by (split; [eassumption|eauto]); cbn [bindr]
  end.
Ltac leafy Hw :=
  match goal with
  | Hg : get ?k ?t = Some ?v, H : SectionsSpec.required _ (VTable ?t) [?k] _ _ |- only ?v _ =>
      exact (required_leaf _ _ _ _ _ Hw H Hg)
  | Hg : get ?k ?t = Some ?v, H : SectionsSpec.optional _ (VTable ?t) [?k] _ _ |- only ?v _ =>
      exact (optional_leaf _ _ _ _ _ Hw H Hg)
  | Hg : get ?k ?t = Some ?v, H : SectionsSpec.defaulted _ (VTable ?t) [?k] _ _ _ |- only ?v _ =>
      exact (defaulted_leaf _ _ _ _ _ _ Hw H Hg)
  | Hg : get ?k ?t = Some ?v, H : forall v, get ?k ?t = Some v -> only v _ |- only ?v _ =>
      exact (H _ Hg)
  end.
(** [known] and the fields give [only]. *)
Ltac onlys Hw Hk :=
  apply only_table; [exact Hw|]; split; [eexists; split; [|left; reflexivity]; discriminate|];
  let k := fresh "k" in let v := fresh "v" in let Hg := fresh "Hg" in
  intros k v Hg; pose proof (proj1 (known_get _ _ Hw) Hk k v Hg) as Hin; cbn [In] in Hin;
  repeat match type of Hin with _ \/ _ => destruct Hin as [Hin|Hin] end;
  try contradiction; subst k; cbn [tails String.eqb Ascii.eqb Bool.eqb]; leafy Hw.
(** No leaf has a meaning as a section. *)
Ltac noleaf Ho :=
  exfalso; apply only_leaf in Ho; cbn [In app] in Ho;
  repeat match type of Ho with _ \/ _ => destruct Ho as [Ho|Ho] end; try contradiction; discriminate.

Ltac known_ok Hw Ho :=
  match goal with |- bindr (known ?ks ?t) _ = _ =>
    let H := fresh in
    assert (H : known ks t = Ok tt) by (refine (only_known _ _ _ Hw _ Ho); reflexivity);
    rewrite H; clear H; cbn [bindr]
  end.
Ltac conjs := repeat match goal with |- _ /\ _ => split end.
Ltac deconj := repeat match goal with H : _ /\ _ |- _ => destruct H end.
Ltac forth Hw :=
  intros Hf; unbind; meanings Hw; cbn; conjs; try assumption;
  match goal with Hk : known _ _ = Ok tt |- only _ _ => onlys Hw Hk end.

Lemma p_device_ok v d : wf v -> (p_device atom_of v = Ok d <-> device_means atom_of v d).
Proof.
  intros Hw. unfold p_device, as_table, device_means. split.
  - destruct v as [l|t]; [discriminate|]. forth Hw.
  - intros (H1 & H2 & H3 & H4 & H5 & H6 & Ho). destruct v as [l|t]; [noleaf Ho|].
    known_ok Hw Ho. parsed Hw. now destruct d.
Qed.

Lemma p_tuning_ok v d : wf v -> (p_tuning atom_of v = Ok d <-> tuning_means atom_of v d).
Proof.
  intros Hw. unfold p_tuning, as_table, tuning_means. split.
  - destruct v as [l|t]; [discriminate|]. forth Hw.
  - intros (H1 & H2 & H3 & H4 & H5 & H6 & H7 & H8 & Ho). destruct v as [l|t]; [noleaf Ho|].
    known_ok Hw Ho. parsed Hw. now destruct d.
Qed.

Lemma p_danger_ok v d : wf v -> (p_danger_zone atom_of v = Ok d <-> danger_means atom_of v d).
Proof.
  intros Hw. unfold p_danger_zone, as_table, danger_means. split.
  - destruct v as [l|t]; [discriminate|]. forth Hw.
  - intros (H1 & H2 & H3 & H4 & H5 & H6 & Ho). destruct v as [l|t]; [noleaf Ho|].
    known_ok Hw Ho. parsed Hw. now destruct d.
Qed.

Lemma p_retry_ok v d : wf v -> (p_retry atom_of v = Ok d <->
  defaulted v ["enabled"] is_bool false (rr_enabled d) /\
  defaulted v ["min_delay_ms"] is_u64 0%N (rr_min_delay_ms d) /\
  defaulted v ["jitter_ms"] is_u64 0%N (rr_jitter_ms d) /\
  only v [["enabled"]; ["min_delay_ms"]; ["jitter_ms"]]).
Proof.
  intros Hw. unfold p_retry, as_table. split.
  - destruct v as [l|t]; [discriminate|]. forth Hw.
  - intros (H1 & H2 & H3 & Ho). destruct v as [l|t]; [noleaf Ho|].
    known_ok Hw Ho. parsed Hw. now destruct d.
Qed.

(** The sub-tables of a table that holds nothing else. *)
Lemma only_sub t ps k v : wf (VTable t) -> only (VTable t) ps -> get k t = Some v -> only v (tails k ps).
Proof. intros Hw Ho. apply only_table in Ho as [_ Ho]; [|exact Hw]. apply Ho. Qed.

Ltac subs Hw Ho :=
  let E := fresh in let v := fresh in intros v E;
  let H := fresh in pose proof (only_sub _ _ _ _ Hw Ho E) as H;
  cbn [tails String.eqb Ascii.eqb Bool.eqb app] in H; exact H.

Lemma p_encryption_ok v x : wf v -> (p_encryption atom_of v = Ok x <-> encryption_means atom_of v x).
Proof.
  intros Hw. unfold p_encryption, as_table, encryption_means. split.
  - destruct v as [l|t]; [discriminate|]. forth Hw.
  - intros (H1 & Ho). destruct v as [l|t]; [noleaf Ho|].
    known_ok Hw Ho. apply req_ref; [exact Hw|].
    split; [exact H1|]. subs Hw Ho.
Qed.

Lemma p_psk_ok v x : wf v -> (p_psk atom_of v = Ok x <->
  required v ["identity"] is_str (psk_identity x) /\
  required v ["secret"; "ref"] is_str (psk_secret x) /\
  only v [["identity"]; ["secret"; "ref"]]).
Proof.
  intros Hw. unfold p_psk, as_table. split.
  - destruct v as [l|t]; [discriminate|]. forth Hw.
  - intros (H1 & H2 & Ho). destruct v as [l|t]; [noleaf Ho|].
    known_ok Hw Ho. parsed Hw.
    rewrite (proj2 (req_ref "secret" t (psk_secret x) Hw)) by (split; [exact H2|subs Hw Ho]).
    now destruct x.
Qed.

Lemma one_key w v x : wf v ->
  (required v [w] is_str x /\ only v [[w]] <-> exists l, v = VTable [(w, VLeaf l)] /\ atom_of l = AStr x).
Proof.
  intros Hw. split.
  - intros [Hr Ho]. destruct v as [l|t]; [noleaf Ho|].
    apply required_cons in Hr as (u & Hg & Hr); [|exact Hw].
    assert (Hk : known [w] t = Ok tt).
    { refine (only_known _ _ _ Hw _ Ho). cbn. now rewrite String.eqb_refl. }
    rewrite known_spec in Hk. pose proof (wf_nodup _ Hw) as Hn.
    apply required_nil in Hr as (l & -> & E). exists l. split; [|exact E].
    destruct t as [|[k1 u1] [|[k2 u2] t]]; [discriminate| |].
    + cbn [get] in Hg. destruct (String.eqb_spec w k1) as [<-|]; [|discriminate]. now injection Hg as ->.
    + exfalso. destruct (Hk k1 u1 (or_introl eq_refl)) as [E1|[]].
      destruct (Hk k2 u2 (or_intror (or_introl eq_refl))) as [E2|[]]. subst.
      inversion Hn as [|? ? H _]; subst. apply H. now left.
  - intros (l & -> & E). assert (Hg : get w [(w, VLeaf l)] = Some (VLeaf l)) by (cbn; now rewrite String.eqb_refl).
    split.
    + apply required_cons; [exact Hw|]. exists (VLeaf l). split; [exact Hg|].
      apply required_nil. now exists l.
    + apply only_table; [exact Hw|]. split; [exists [w]; split; [discriminate|now left]|].
      intros k v Hk. cbn [get tails] in *. destruct (String.eqb_spec k w) as [->|]; [|discriminate].
      injection Hk as <-. apply only_leaf. now left.
Qed.

Lemma p_secret_source_ok v s : wf v -> (p_secret_source atom_of v = Ok s <->
  required v [source_word s] is_str (source_text s) /\ only v [[source_word s]]).
Proof.
  intros Hw. rewrite one_key by exact Hw. unfold p_secret_source, p_variant. split.
  - destruct v as [l|[|[k u] [|? ?]]]; cbn [bindr]; try discriminate.
    destruct (String.eqb_spec k "file") as [->|H1];
      [|destruct (String.eqb_spec k "inline") as [->|H2];
        [|destruct (String.eqb_spec k "env") as [->|H3]; [|discriminate]]].
    all: intros H; unbind;
      match goal with H : p_str _ _ = Ok _ |- _ => apply scalar_str in H as (l & -> & H); unfold is_str in H end;
      exists l; cbn; auto.
  - intros (l & -> & E). cbn [bindr].
    assert (Hp : p_str atom_of (VLeaf l) = Ok (source_text s)) by (apply scalar_str; now exists l).
    destruct s; cbn [source_word source_text] in *;
      cbn [String.eqb Ascii.eqb Bool.eqb]; rewrite Hp; reflexivity.
Qed.

Lemma p_secret_def_ok v d : wf v -> (p_secret_def atom_of v = Ok d <-> secret_means atom_of v d).
Proof.
  intros Hw. unfold p_secret_def, as_table, secret_means. split.
  - destruct v as [l|t]; [discriminate|]. intros Hf. unbind.
    match goal with H : req "source" _ _ = Ok ?s |- _ =>
      unfold req in H; destruct (get "source" t) as [u|] eqn:Es; [|discriminate];
      apply p_secret_source_ok in H as [Hs1 Hs2]; [|exact (wf_get _ _ _ Hw Es)] end.
    meanings Hw. cbn [sd_source sd_encoding sd_kek]. conjs; try assumption.
    + apply required_cons; [exact Hw|]. now exists u.
    + apply only_table; [exact Hw|]. split; [eexists; split; [|left; reflexivity]; discriminate|].
      intros k v Hg.
      match goal with Hk : known _ _ = Ok tt |- _ =>
        pose proof (proj1 (known_get _ _ Hw) Hk k v Hg) as Hin; cbn [In] in Hin end.
      repeat match type of Hin with _ \/ _ => destruct Hin as [Hin|Hin] end; try contradiction; subst k;
      cbn [tails String.eqb Ascii.eqb Bool.eqb]; [|leafy Hw|leafy Hw].
      rewrite Es in Hg. injection Hg as <-. exact Hs2.
  - intros (H1 & H2 & H3 & Ho). destruct v as [l|t]; [noleaf Ho|]. known_ok Hw Ho.
    assert (Hs : req "source" (p_secret_source atom_of) t = Ok (sd_source d)).
    { apply required_cons in H1 as (u & Hg & H1); [|exact Hw]. unfold req. rewrite Hg.
      apply p_secret_source_ok; [exact (wf_get _ _ _ Hw Hg)|]. split; [exact H1|].
      exact (only_sub _ _ _ _ Hw Ho Hg). }
    rewrite Hs. cbn [bindr].
    assert (Hk : opt "encrypted_by" (p_ref atom_of) t = Ok (sd_kek d)).
    { apply opt_ref; [exact Hw|]. split; [exact H3|]. subs Hw Ho. }
    parsed Hw. rewrite Hk. now destruct d.
Qed.

Lemma p_secrets_ok v defs : wf v -> (p_secrets atom_of v = Ok defs <-> secrets_means atom_of v defs).
Proof.
  intros Hw. unfold p_secrets, as_table, secrets_means. destruct v as [l|t].
  - split; [discriminate|intros (t & E & _); discriminate].
  - transitivity (Forall2 (fun kv nd => fst kv = fst nd /\ secret_means atom_of (snd kv) (snd nd)) t defs).
    2:{ split; [intros H; now exists t|]. intros (t' & [= <-] & H). exact H. }
    inversion Hw as [|? _ Hf]; subst. clear Hw.
    revert defs; induction t as [|[k v] t IH]; intros defs; cbn [p_defs].
    + split; [intros [= <-]; constructor|]. intros H. now inversion H.
    + inversion Hf as [|? ? Hv Hf']; subst. cbn [snd] in Hv. specialize (IH Hf'). split.
      * intros H. unbind. constructor; [|now apply IH]. cbn [fst snd]. split; [reflexivity|].
        now apply p_secret_def_ok.
      * intros H. inversion H as [|? [k' d] ? ds [Ek Hd] Hr]; subst. cbn [fst snd] in *. subst k'.
        apply p_secret_def_ok in Hd; [|exact Hv]. rewrite Hd. cbn [bindr].
        apply IH in Hr. rewrite Hr. reflexivity.
Qed.

(** *** Remote sources *)
Definition psk_means (v : value) (o : option psk) : Prop :=
  match o with
  | Some k => required v ["psk"; "identity"] is_str (psk_identity k) /\
              required v ["psk"; "secret"; "ref"] is_str (psk_secret k)
  | None => absent v ["psk"]
  end.

Lemma opt_psk t o : wf (VTable t) -> (opt "psk" (p_psk atom_of) t = Ok o <->
  psk_means (VTable t) o /\ forall v, get "psk" t = Some v -> only v [["identity"]; ["secret"; "ref"]]).
Proof.
  intros Hw. unfold opt, psk_means. destruct (get "psk" t) as [v|] eqn:E.
  - pose proof (wf_get _ _ _ Hw E) as Hv. split.
    + intros H. unbind. apply p_psk_ok in H as (H1 & H2 & H3); [|exact Hv]. cbn.
      rewrite !required_cons with (t := t) by exact Hw.
      split; [split; exists v; auto|]. intros v' [= <-]. exact H3.
    + intros [H Ho]. specialize (Ho v eq_refl). destruct o as [k|].
      * destruct H as [H1 H2].
        apply required_cons in H1 as (v1 & E1 & H1); [|exact Hw].
        apply required_cons in H2 as (v2 & E2 & H2); [|exact Hw].
        rewrite E in E1, E2. injection E1 as <-. injection E2 as <-.
        rewrite (proj2 (p_psk_ok v k Hv)) by auto. reflexivity.
      * apply absent_one in H; [congruence|exact Hw].
  - split.
    + intros [= <-]. split; [now apply absent_one|]. discriminate.
    + intros [H _]. destruct o as [k|]; [|reflexivity].
      destruct H as [H _]. apply required_cons in H as (v & E' & _); [congruence|exact Hw].
Qed.

Lemma t_remote_ok t r : wf (VTable t) -> (t_remote atom_of t = Ok r <-> remote_means atom_of [] (VTable t) r).
Proof.
  intros Hw. unfold t_remote, remote_means. change (match rs_psk r with Some _ => _ | None => _ end)
    with (psk_means (VTable t) (rs_psk r)). split.
  - intros Hf. unbind. 
    match goal with H : opt "psk" _ _ = Ok _ |- _ => apply opt_psk in H as [? ?]; [|exact Hw] end.
    meanings Hw; cbn; conjs; try assumption;
    match goal with Hk : known _ _ = Ok tt |- only _ _ => onlys Hw Hk end.
  - intros (H1 & H2 & H3 & H4 & H5 & H6 & Ho). known_ok Hw Ho. cbn [app] in Ho.
    assert (Hp : opt "psk" (p_psk atom_of) t = Ok (rs_psk r)).
    { apply opt_psk; [exact Hw|]. split; [exact H2|]. subs Hw Ho. }
    parsed Hw. rewrite Hp. cbn [bindr]. parsed Hw. now destruct r.
Qed.

(** *** Archives *)
Lemma dft_retry t d : wf (VTable t) ->
  (dft "rate_limited_retry" (p_retry atom_of) (mk_retry_section false 0 0) t = Ok d <->
   defaulted (VTable t) ["rate_limited_retry"; "enabled"] is_bool false (rr_enabled d) /\
   defaulted (VTable t) ["rate_limited_retry"; "min_delay_ms"] is_u64 0%N (rr_min_delay_ms d) /\
   defaulted (VTable t) ["rate_limited_retry"; "jitter_ms"] is_u64 0%N (rr_jitter_ms d) /\
   forall v, get "rate_limited_retry" t = Some v -> only v [["enabled"]; ["min_delay_ms"]; ["jitter_ms"]]).
Proof.
  intros Hw. unfold dft, SectionsSpec.defaulted.
  rewrite !required_cons, !absent_cons by exact Hw.
  destruct (get "rate_limited_retry" t) as [v|] eqn:E.
  - pose proof (wf_get _ _ _ Hw E) as Hv. rewrite (p_retry_ok v d Hv). unfold SectionsSpec.defaulted. split.
    + intros (H1 & H2 & H3 & Ho). conjs.
      * destruct H1 as [H1|[H1 ->]]; [left; now exists v|right]. split; [|reflexivity]. now intros ? [= <-].
      * destruct H2 as [H1'|[H1' ->]]; [left; now exists v|right]. split; [|reflexivity]. now intros ? [= <-].
      * destruct H3 as [H1'|[H1' ->]]; [left; now exists v|right]. split; [|reflexivity]. now intros ? [= <-].
      * now intros ? [= <-].
    + intros (H1 & H2 & H3 & Ho). conjs; [| | |now apply Ho].
      * destruct H1 as [(v' & [= <-] & H)|[H ->]]; [now left|right]. split; [now apply H|reflexivity].
      * destruct H2 as [(v' & [= <-] & H)|[H ->]]; [now left|right]. split; [now apply H|reflexivity].
      * destruct H3 as [(v' & [= <-] & H)|[H ->]]; [now left|right]. split; [now apply H|reflexivity].
  - split.
    + intros [= <-]. cbn. conjs; try (right; split; [discriminate|reflexivity]). discriminate.
    + intros (H1 & H2 & H3 & _).
      destruct H1 as [(v' & ? & _)|[_ H1]]; [discriminate|].
      destruct H2 as [(v' & ? & _)|[_ H2]]; [discriminate|].
      destruct H3 as [(v' & ? & _)|[_ H3]]; [discriminate|].
      destruct d; cbn in *; now subst.
Qed.

(** A table and the same table without the tag. *)
Lemma required_remove {X} s t k p (R : atom -> X -> Prop) x : wf (VTable t) -> k <> s ->
  (required (VTable (remove s t)) (k :: p) R x <-> required (VTable t) (k :: p) R x).
Proof.
  intros Hw Hne. rewrite !required_cons by auto using wf_remove. now rewrite get_remove.
Qed.
Lemma absent_remove s t k p : wf (VTable t) -> k <> s ->
  (absent (VTable (remove s t)) (k :: p) <-> absent (VTable t) (k :: p)).
Proof.
  intros Hw Hne. rewrite !absent_cons by auto using wf_remove. now rewrite get_remove.
Qed.
Lemma optional_remove {X} s t k p (R : atom -> X -> Prop) o : wf (VTable t) -> k <> s ->
  (optional (VTable (remove s t)) (k :: p) R o <-> optional (VTable t) (k :: p) R o).
Proof.
  intros Hw Hne. destruct o; cbn; [now apply required_remove|now apply absent_remove].
Qed.
Lemma defaulted_remove {X} s t k p (R : atom -> X -> Prop) d x : wf (VTable t) -> k <> s ->
  (defaulted (VTable (remove s t)) (k :: p) R d x <-> defaulted (VTable t) (k :: p) R d x).
Proof.
  intros Hw Hne. unfold SectionsSpec.defaulted. now rewrite required_remove, absent_remove.
Qed.
Lemma secret_remove s t k o : wf (VTable t) -> k <> s ->
  (secret_optional (VTable (remove s t)) k o <-> secret_optional (VTable t) k o).
Proof.
  intros Hw Hne. destruct o; cbn; [now apply required_remove|now apply absent_remove].
Qed.

Lemma required_word t k w : wf (VTable t) -> required (VTable t) [k] is_str w ->
  exists l, get k t = Some (VLeaf l).
Proof.
  intros Hw H. apply required_cons in H as (v & Hg & H); [|exact Hw].
  apply required_nil in H as (l & -> & _). now exists l.
Qed.

Lemma and_both (A B A' B' : Prop) : (A <-> A') -> (B <-> B') -> (A /\ B <-> A' /\ B').
Proof. tauto. Qed.
Ltac removed Hw :=
  repeat match goal with |- (_ /\ _) <-> (_ /\ _) => apply and_both end;
  lazymatch goal with
  | |- SectionsSpec.required _ _ _ _ _ <-> _ => apply required_remove; [exact Hw|discriminate]
  | |- SectionsSpec.absent _ _ <-> _ => apply absent_remove; [exact Hw|discriminate]
  | |- SectionsSpec.optional _ _ _ _ _ <-> _ => apply optional_remove; [exact Hw|discriminate]
  | |- SectionsSpec.defaulted _ _ _ _ _ _ <-> _ => apply defaulted_remove; [exact Hw|discriminate]
  | |- SectionsSpec.secret_optional _ _ _ _ <-> _ => apply secret_remove; [exact Hw|discriminate]
  | |- only _ _ <-> _ =>
      eapply only_remove; [exact Hw|eassumption|eexists; split; [|left; reflexivity]; discriminate|reflexivity]
  end.

Lemma t_archive_ok t a : wf (VTable t) -> (t_archive atom_of t = Ok a <-> archive_means atom_of [] (VTable t) a).
Proof.
  intros Hw. unfold t_archive, archive_means.
  pose proof (wf_remove "storage" t Hw) as Hw'. set (t' := remove "storage" t) in *. split.
  - intros Hf. apply bindr_ok in Hf as (tag & Ht & Hf).
    apply (req_scalar _ _ _ _ _ Hw scalar_str) in Ht.
    destruct (required_word _ _ _ Hw Ht) as (l & Hl).
    destruct (String.eqb_spec tag "filesystem") as [->|Hfs];
      [|destruct (String.eqb_spec tag "s3") as [->|]; [|discriminate]].
    + unbind. meanings Hw'. cbn [fs_path fs_kek fs_autofetch].
      match goal with Hk : known _ _ = Ok tt |- _ => assert (Ho : only (VTable t')
        [["path"]; ["archive_kek"; "ref"]; ["autofetch"]]) by (onlys Hw' Hk) end.
      subst t'. rewrite <- (required_remove "storage" t "path") by (exact Hw || discriminate).
      rewrite <- (secret_remove "storage") by (exact Hw || discriminate).
      rewrite <- (defaulted_remove "storage") by (exact Hw || discriminate).
      conjs; try assumption. cbn [app].
      apply (only_remove "storage" l); try assumption; [|reflexivity].
      eexists; split; [|left; reflexivity]; discriminate.
    + unbind.
      match goal with H : dft "rate_limited_retry" _ _ _ = Ok _ |- _ =>
        apply dft_retry in H as (? & ? & ? & ?); [|exact Hw'] end.
      meanings Hw'. cbn.
      match goal with Hk : known _ _ = Ok tt |- _ => assert (Ho : only (VTable t')
        [["bucket"]; ["prefix"]; ["region"]; ["access_key_id"; "ref"];
         ["secret_access_key"; "ref"]; ["session_token"; "ref"]; ["endpoint"]; ["connections"];
         ["connect_timeout_ms"]; ["operation_attempt_timeout_ms"]; ["max_attempts"];
         ["rate_limited_retry"; "enabled"]; ["rate_limited_retry"; "min_delay_ms"];
         ["rate_limited_retry"; "jitter_ms"]; ["archive_kek"; "ref"]; ["autofetch"]]) by (onlys Hw' Hk) end.
      subst t'. conjs; try assumption.
      all: try (eapply required_remove; [exact Hw| |eassumption]; discriminate).
      all: try (eapply optional_remove; [exact Hw| |eassumption]; discriminate).
      all: try (eapply defaulted_remove; [exact Hw| |eassumption]; discriminate).
      all: try (eapply secret_remove; [exact Hw| |eassumption]; discriminate).
      apply (only_remove "storage" l); try assumption; [|reflexivity].
      eexists; split; [|left; reflexivity]; discriminate.
  - destruct a as [f|s].
    + intros (Ht & H1 & H2 & H3 & Ho). destruct (required_word _ _ _ Hw Ht) as (l & Hl).
      rewrite (proj2 (req_scalar _ _ _ _ _ Hw scalar_str) Ht). cbn [bindr String.eqb Ascii.eqb Bool.eqb].
      cbn [app] in Ho. apply (only_remove "storage" l) in Ho; try assumption; [|eexists; split; [|left; reflexivity]; discriminate|reflexivity].
      apply (required_remove "storage") in H1; [|exact Hw|discriminate].
      apply (secret_remove "storage") in H2; [|exact Hw|discriminate].
      apply (defaulted_remove "storage") in H3; [|exact Hw|discriminate].
      fold t' in H1, H2, H3, Ho. known_ok Hw' Ho. parsed Hw'.
      rewrite (proj2 (opt_ref "archive_kek" t' (fs_kek f) Hw')) by (split; [exact H2|subs Hw' Ho]).
      cbn [bindr]. parsed Hw'. now destruct f.
    + intros (Ht & H1 & H2 & H3 & H4 & H5 & H6 & H7 & H8 & H9 & H10 & H11 & H12 & H13 & H14 & H15 & H16 & Ho).
      destruct (required_word _ _ _ Hw Ht) as (l & Hl).
      rewrite (proj2 (req_scalar _ _ _ _ _ Hw scalar_str) Ht). cbn [bindr String.eqb Ascii.eqb Bool.eqb].
      cbn [app] in Ho. apply (only_remove "storage" l) in Ho; try assumption; [|eexists; split; [|left; reflexivity]; discriminate|reflexivity].
      apply (required_remove "storage") in H1; [|exact Hw|discriminate].
      apply (optional_remove "storage") in H2; [|exact Hw|discriminate].
      apply (optional_remove "storage") in H3; [|exact Hw|discriminate].
      apply (required_remove "storage") in H4; [|exact Hw|discriminate].
      apply (required_remove "storage") in H5; [|exact Hw|discriminate].
      apply (secret_remove "storage") in H6; [|exact Hw|discriminate].
      apply (optional_remove "storage") in H7; [|exact Hw|discriminate].
      apply (defaulted_remove "storage") in H8; [|exact Hw|discriminate].
      apply (defaulted_remove "storage") in H9; [|exact Hw|discriminate].
      apply (defaulted_remove "storage") in H10; [|exact Hw|discriminate].
      apply (defaulted_remove "storage") in H11; [|exact Hw|discriminate].
      apply (defaulted_remove "storage") in H12; [|exact Hw|discriminate].
      apply (defaulted_remove "storage") in H13; [|exact Hw|discriminate].
      apply (defaulted_remove "storage") in H14; [|exact Hw|discriminate].
      apply (secret_remove "storage") in H15; [|exact Hw|discriminate].
      apply (defaulted_remove "storage") in H16; [|exact Hw|discriminate].
      fold t' in H1, H2, H3, H4, H5, H6, H7, H8, H9, H10, H11, H12, H13, H14, H15, H16, Ho.
      known_ok Hw' Ho. parsed Hw'.
      rewrite (proj2 (req_ref "access_key_id" t' (ss_access_key_id s) Hw')) by (split; [exact H4|subs Hw' Ho]).
      cbn [bindr].
      rewrite (proj2 (req_ref "secret_access_key" t' (ss_secret_access_key s) Hw')) by (split; [exact H5|subs Hw' Ho]).
      cbn [bindr].
      rewrite (proj2 (opt_ref "session_token" t' (ss_session_token s) Hw')) by (split; [exact H6|subs Hw' Ho]).
      cbn [bindr]. parsed Hw'.
      rewrite (proj2 (dft_retry t' (ss_retry s) Hw')) by (conjs; try assumption; subs Hw' Ho).
      cbn [bindr].
      rewrite (proj2 (opt_ref "archive_kek" t' (ss_kek s) Hw')) by (split; [exact H15|subs Hw' Ho]).
      cbn [bindr]. parsed Hw'. now destruct s.
Qed.

(** The two tagged sections, with and without their tag. *)
Lemma archive_tag t a l : wf (VTable t) -> get "type" t = Some (VLeaf l) ->
  (archive_means atom_of [] (VTable (remove "type" t)) a <-> archive_means atom_of [["type"]] (VTable t) a).
Proof.
  intros Hw Hl. unfold archive_means. destruct a as [f|s]; cbn [app]; removed Hw.
Qed.

Lemma remote_tag t r l : wf (VTable t) -> get "type" t = Some (VLeaf l) ->
  (remote_means atom_of [] (VTable (remove "type" t)) r <-> remote_means atom_of [["type"]] (VTable t) r).
Proof.
  intros Hw Hl. unfold remote_means. cbn [app]. destruct (rs_psk r); removed Hw.
Qed.

Lemma p_source_ok v s : wf v -> (p_source atom_of v = Ok s <-> source_means atom_of v s).
Proof.
  intros Hw. unfold p_source, as_table. split.
  - destruct v as [l|t]; [discriminate|]. pose proof (wf_remove "type" t Hw) as Hw'.
    intros Hf. apply bindr_ok in Hf as (tag & Ht & Hf).
    apply (req_scalar _ _ _ _ _ Hw scalar_str) in Ht.
    destruct (required_word _ _ _ Hw Ht) as (l & Hl). unfold source_means.
    destruct (String.eqb_spec tag "raw") as [->|H1];
      [|destruct (String.eqb_spec tag "archive") as [->|H2];
        [|destruct (String.eqb_spec tag "remote") as [->|]; [|discriminate]]].
    + unbind. meanings Hw'.
      match goal with Hk : known _ _ = Ok tt |- _ => assert (Ho : only (VTable (remove "type" t))
        [["image_path"]; ["autofetch"]; ["copy_on_read"]]) by (onlys Hw' Hk) end.
      conjs; [assumption| | | |].
      * eapply required_remove; [exact Hw| |eassumption]; discriminate.
      * eapply defaulted_remove; [exact Hw| |eassumption]; discriminate.
      * eapply defaulted_remove; [exact Hw| |eassumption]; discriminate.
      * apply (only_remove "type" l); try assumption; [|reflexivity].
        eexists; split; [|left; reflexivity]; discriminate.
    + unbind. split; [assumption|]. apply (archive_tag t _ l Hw Hl). now apply t_archive_ok.
    + unbind. split; [assumption|]. apply (remote_tag t _ l Hw Hl). now apply t_remote_ok.
  - intros H. destruct v as [l|t].
    { exfalso. assert (Hr : exists x, required (VLeaf l) ["type"] is_str x).
      { destruct s; destruct H as (H & _); eauto. }
      destruct Hr as (x & l' & Hs & _). inversion Hs. }
    pose proof (wf_remove "type" t Hw) as Hw'. destruct s as [p b1 b2|a|r].
    + destruct H as (Ht & H1 & H2 & H3 & Ho). destruct (required_word _ _ _ Hw Ht) as (l & Hl).
      rewrite (proj2 (req_scalar _ _ _ _ _ Hw scalar_str) Ht). cbn [bindr String.eqb Ascii.eqb Bool.eqb].
      apply (only_remove "type" l) in Ho; try assumption; [|eexists; split; [|left; reflexivity]; discriminate|reflexivity].
      apply (required_remove "type") in H1; [|exact Hw|discriminate].
      apply (defaulted_remove "type") in H2; [|exact Hw|discriminate].
      apply (defaulted_remove "type") in H3; [|exact Hw|discriminate].
      known_ok Hw' Ho. parsed Hw'. reflexivity.
    + destruct H as (Ht & H). destruct (required_word _ _ _ Hw Ht) as (l & Hl).
      rewrite (proj2 (req_scalar _ _ _ _ _ Hw scalar_str) Ht). cbn [bindr String.eqb Ascii.eqb Bool.eqb].
      apply (archive_tag t _ l Hw Hl) in H. apply t_archive_ok in H; [|exact Hw']. now rewrite H.
    + destruct H as (Ht & H). destruct (required_word _ _ _ Hw Ht) as (l & Hl).
      rewrite (proj2 (req_scalar _ _ _ _ _ Hw scalar_str) Ht). cbn [bindr String.eqb Ascii.eqb Bool.eqb].
      apply (remote_tag t _ l Hw Hl) in H. apply t_remote_ok in H; [|exact Hw']. now rewrite H.
Qed.

Lemma as_archive_ok v a : wf v ->
  (as_table (t_archive atom_of) v = Ok a <-> archive_means atom_of [] v a).
Proof.
  intros Hw. destruct v as [l|t]; cbn [as_table]; [|now apply t_archive_ok].
  split; [discriminate|]. intros H. exfalso.
  assert (Hr : exists x, required (VLeaf l) ["storage"] is_str x).
  { destruct a; destruct H as (H & _); eauto. }
  destruct Hr as (x & l' & Hs & _). inversion Hs.
Qed.

Lemma as_remote_ok v r : wf v ->
  (as_table (t_remote atom_of) v = Ok r <-> remote_means atom_of [] v r).
Proof.
  intros Hw. destruct v as [l|t]; cbn [as_table]; [|now apply t_remote_ok].
  split; [discriminate|]. intros ((l' & Hs & _) & _). inversion Hs.
Qed.

(** ** Whole files *)
Section Fields.
Context {X : Type} (p : value -> res X) (M : value -> X -> Prop).
Hypothesis Hp : forall v x, wf v -> (p v = Ok x <-> M v x).

Lemma req_section k t x : wf (VTable t) ->
  (req k p t = Ok x <-> exists v, stands (VTable t) [k] v /\ M v x).
Proof.
  intros Hw. unfold req. split.
  - destruct (get k t) as [v|] eqn:E; [|discriminate]. intros H. exists v.
    split; [now apply stands_one|]. apply Hp; [exact (wf_get _ _ _ Hw E)|exact H].
  - intros (v & Hs & H). apply stands_one in Hs; [|exact Hw]. rewrite Hs.
    apply Hp; [exact (wf_get _ _ _ Hw Hs)|exact H].
Qed.

Lemma opt_section k t o : wf (VTable t) ->
  (opt k p t = Ok o <-> match o with
                        | Some x => exists v, stands (VTable t) [k] v /\ M v x
                        | None => absent (VTable t) [k]
                        end).
Proof.
  intros Hw. unfold opt. destruct o as [x|].
  - rewrite <- (req_section k t x Hw). unfold req. destruct (get k t) as [v|]; [|split; discriminate].
    destruct (p v); cbn [bindr]; split; intros H; try discriminate; injection H as ->; reflexivity.
  - rewrite absent_one by exact Hw. destruct (get k t) as [v|]; [|split; reflexivity].
    destruct (p v); cbn [bindr]; split; discriminate.
Qed.

Lemma dft_section k t d x : wf (VTable t) -> p (VTable []) = Ok d ->
  (dft k p d t = Ok x <-> exists v, or_empty (VTable t) k v /\ M v x).
Proof.
  intros Hw Hd. unfold dft, or_empty. split.
  - destruct (get k t) as [v|] eqn:E.
    + intros H. exists v. split; [left; now apply stands_one|].
      apply Hp; [exact (wf_get _ _ _ Hw E)|exact H].
    + intros [= <-]. exists (VTable []). split; [right; split; [now apply absent_one|reflexivity]|].
      apply Hp; [repeat constructor|exact Hd].
  - intros (v & [Hs|[Hg ->]] & H).
    + apply stands_one in Hs; [|exact Hw]. rewrite Hs.
      apply Hp; [exact (wf_get _ _ _ Hw Hs)|exact H].
    + apply absent_one in Hg; [|exact Hw]. rewrite Hg. apply Hp in H; [|repeat constructor]. rewrite Hd in H. exact H.
Qed.
End Fields.

Definition sections_of (m : value) : res file_sections :=
  as_table (fun t =>
    let! dz := dft "danger_zone" (p_danger_zone atom_of) no_danger t in
    let! defs := dft "secrets" (p_secrets atom_of) [] t in
    let! dev := req "device" (p_device atom_of) t in
    let! tun := dft "tuning" (p_tuning atom_of) tuning_default t in
    let! enc := opt "encryption" (p_encryption atom_of) t in
    let! src := opt "stripe_source" (p_source atom_of) t in
    Ok (mk_file_sections dev tun enc dz src defs)) m.

Lemma sections_ok m c : wf m ->
  (sections_of m = Ok c /\ validate_top_level_keys m
     ["device"; "tuning"; "encryption"; "danger_zone"; "stripe_source"; "secrets"] = Ok tt
   <-> file_means atom_of m c).
Proof.
  intros Hw. unfold sections_of, file_means. destruct m as [l|t].
  { split; [intros [H _]; discriminate|]. intros (_ & _ & _ & _ & _ & _ & t & E & _). discriminate. }
  cbn [as_table].
  assert (Hk : validate_top_level_keys (VTable t)
     ["device"; "tuning"; "encryption"; "danger_zone"; "stripe_source"; "secrets"] = Ok tt <->
     exists t', VTable t = VTable t' /\ forall k v, In (k, v) t' ->
       In k ["device"; "tuning"; "encryption"; "danger_zone"; "stripe_source"; "secrets"]).
  { transitivity (known ["device"; "tuning"; "encryption"; "danger_zone"; "stripe_source"; "secrets"] t = Ok tt).
    - unfold validate_top_level_keys, known. destruct (forallb _ t); split; intros; congruence.
    - rewrite known_spec. split; [intros H; now exists t|]. intros (t' & [= <-] & H). exact H. }
  rewrite Hk. clear Hk.
  rewrite <- (req_section _ _ p_device_ok "device" t _ Hw).
  rewrite <- (dft_section _ _ p_tuning_ok "tuning" t tuning_default (f_tuning c) Hw) by reflexivity.
  rewrite <- (opt_section _ _ p_encryption_ok "encryption" t (f_encryption c) Hw).
  rewrite <- (dft_section _ _ p_danger_ok "danger_zone" t no_danger _ Hw) by reflexivity.
  rewrite <- (opt_section _ _ p_source_ok "stripe_source" t (f_source c) Hw).
  rewrite <- (dft_section _ _ p_secrets_ok "secrets" t [] _ Hw) by reflexivity.
  split.
  - intros [H Hk]. unbind. cbn. conjs; assumption.
  - intros (H1 & H2 & H3 & H4 & H5 & H6 & H7). split; [|exact H7].
    rewrite H4. cbn [bindr]. rewrite H6. cbn [bindr]. rewrite H1. cbn [bindr]. rewrite H2. cbn [bindr].
    rewrite H3. cbn [bindr]. rewrite H5. cbn [bindr]. now destruct c.
Qed.

Definition other_of {A} (main : string) (p : value -> res A) (m : value) : res (other_sections A) :=
  as_table (fun t =>
    let! dz := dft "danger_zone" (p_danger_zone atom_of) no_danger t in
    let! defs := dft "secrets" (p_secrets atom_of) [] t in
    let! x := req main p t in
    Ok (mk_other_sections x dz defs)) m.

Lemma other_ok {A} main (p : value -> res A) (M : value -> A -> Prop) m c :
  (forall v x, wf v -> (p v = Ok x <-> M v x)) -> wf m ->
  (other_of main p m = Ok c /\ validate_top_level_keys m [main; "danger_zone"; "secrets"] = Ok tt
   <-> other_means atom_of main M m c).
Proof.
  intros Hp Hw. unfold other_of, other_means. destruct m as [l|t].
  { split; [intros [H _]; discriminate|]. intros (_ & _ & _ & t & E & _). discriminate. }
  cbn [as_table].
  assert (Hk : validate_top_level_keys (VTable t) [main; "danger_zone"; "secrets"] = Ok tt <->
     exists t', VTable t = VTable t' /\ forall k v, In (k, v) t' -> In k [main; "danger_zone"; "secrets"]).
  { transitivity (known [main; "danger_zone"; "secrets"] t = Ok tt).
    - unfold validate_top_level_keys, known. destruct (forallb _ t); split; intros; congruence.
    - rewrite known_spec. split; [intros H; now exists t|]. intros (t' & [= <-] & H). exact H. }
  rewrite Hk. clear Hk.
  rewrite <- (req_section _ _ Hp main t _ Hw).
  rewrite <- (dft_section _ _ p_danger_ok "danger_zone" t no_danger _ Hw) by reflexivity.
  rewrite <- (dft_section _ _ p_secrets_ok "secrets" t [] _ Hw) by reflexivity.
  split.
  - intros [H Hk]. unbind. cbn. conjs; assumption.
  - intros (H1 & H2 & H3 & H4). split; [|exact H4].
    rewrite H2. cbn [bindr]. rewrite H3. cbn [bindr]. rewrite H1. cbn [bindr]. now destruct c.
Qed.
End Parse.
