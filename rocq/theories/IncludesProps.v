(** C41: config includes are merged without silent override. *)
From Coq Require Import List NArith Bool String Ascii Permutation.
From Verif Require Import Base BaseFacts IncludesModel IncludesSpec IncludesProofs.
Import ListNotations.
Local Open Scope string_scope.

(** Proof glue: what a successful run went through. *)
Lemma resolve_inv : forall fs t m, fs_wf fs -> wf (VTable t) ->
  resolve_includes fs (VTable t) = Ok m ->
  exists l es ts mt, m = VTable mt /\ include_list (VTable t) l /\ parse_entries l = Ok es /\
    opened fs es ts /\ Forall (fun t => wf (VTable t)) ts /\
    ForallOrdPairs agree (remove "include" t :: ts) /\ wf m /\
    (forall p, look m p = look_all (remove "include" t :: ts) p).
Proof.
  intros fs t m Hfs Hwf H. unfold resolve_includes in H.
  destruct (parse_include_array (VTable t)) as [es|?|] eqn:Ep; cbn [bindr] in H; try discriminate.
  destruct (include_all fs es (remove "include" t)) as [mt|?|] eqn:Ei; cbn [bindr] in H; try discriminate.
  injection H as <-.
  destruct (include_list_ex _ _ Ep) as (l & Hl & Hpl).
  destruct (include_all_ok fs Hfs es _ mt (wf_remove "include" t Hwf) Ei) as (ts & H1 & H2 & H3 & H4).
  exists l, es, ts, mt. repeat split; auto. exact (opened_wf fs Hfs _ _ H1).
Qed.

(** When loading the main file [root] succeeds with [m]: its include list was
    readable; the merged configuration says exactly what the main file (without
    its include list) and the included files say, at every dotted path; and no
    two of those files conflict. *)
Theorem C41_merged : forall fs root m, fs_wf fs -> wf root ->
  resolve_includes fs root = Ok m ->
  exists l files,
    include_list root l /\ loads fs l files /\ wf m /\
    (forall p n, says m p n <-> own_says root p n \/ exists f, In f files /\ says f p n) /\
    (forall f, In f files -> ~ conflict_own root f) /\
    ForallOrdPairs (fun a b => ~ conflict a b) files.
Proof.
  intros fs root m Hfs Hwf H.
  destruct root as [x|t]; [cbn in H; discriminate|].
  destruct (resolve_inv fs t m Hfs Hwf H) as (l & es & ts & mt & -> & Hil & Hpe & Hop & Hwt & Hag & Hm & Hlook).
  exists l, (map VTable ts). split; [exact Hil|]. split.
  { apply loads_opened. exists es, ts. auto. }
  split; [exact Hm|]. rewrite Forall_forall in Hwt. split; [|split].
  - intros p n. rewrite says_look by exact Hm. rewrite Hlook, look_all_in by exact Hag. split.
    + intros (t' & [<-|Hin] & Hl).
      * left. now apply look_remove.
      * right. exists (VTable t'). split; [now apply in_map|]. apply says_look; auto.
    + intros [Ho|(f & Hin & Hs)].
      * exists (remove "include" t). split; [left; auto|now apply look_remove].
      * apply in_map_iff in Hin. destruct Hin as (t' & <- & Hin).
        exists t'. split; [right; auto|]. apply says_look; auto.
  - intros f Hin. apply in_map_iff in Hin. destruct Hin as (t' & <- & Hin).
    inversion Hag as [|? ? Hf Ho]; subst. rewrite Forall_forall in Hf.
    apply agree_own; auto.
  - inversion Hag as [|? ? Hf Ho]; subst.
    apply (ford_map agree (fun a b => ~ conflict a b)); auto.
    + now apply Forall_forall.
    + intros a b Ha Hb. now apply agree_conflict.
Qed.

(** Loading succeeds exactly when the include list is well formed, every file
    in it loads, and no two files conflict; otherwise it is an error. *)
Theorem C41_exact : forall fs root, fs_wf fs -> wf root ->
  (is_ok (resolve_includes fs root) = true <->
   exists l files, include_list root l /\ loads fs l files /\
     (forall f, In f files -> ~ conflict_own root f) /\
     ForallOrdPairs (fun a b => ~ conflict a b) files) /\
  is_panic (resolve_includes fs root) = false.
Proof.
  intros fs root Hfs Hwf. split; [split|].
  - intros H. destruct (resolve_includes fs root) as [m|?|] eqn:E; try discriminate.
    destruct (C41_merged fs root m Hfs Hwf E) as (l & files & H1 & H2 & _ & _ & H3 & H4).
    exists l, files. auto.
  - intros (l & files & Hil & Hl & Hown & Hpair).
    destruct root as [x|t]; [inversion Hil|].
    apply loads_opened in Hl. destruct Hl as (es & ts & Hp & Ho & ->).
    pose proof (opened_wf fs Hfs _ _ Ho) as Hwt.
    unfold resolve_includes. rewrite (include_list_parse t l Hwf Hil), Hp. cbn [bindr].
    assert (Hok : is_ok (include_all fs es (remove "include" t)) = true).
    { apply (include_all_complete fs Hfs es ts Ho); [now apply wf_remove|].
      constructor.
      - rewrite Forall_forall in *. intros b Hb. apply agree_own; auto. apply Hown. now apply in_map.
      - apply (ford_map agree (fun a b => ~ conflict a b)); auto.
        intros a b Ha Hb. now apply agree_conflict. }
    destruct (include_all fs es (remove "include" t)); [reflexivity|discriminate|discriminate].
  - unfold resolve_includes. destruct root as [x|t]; [reflexivity|].
    assert (Hpa : parse_include_array (VTable t) <> Panic).
    { cbn. destruct (get "include" t) as [[[l|c]|?]|]; try discriminate. apply parse_entries_no_panic. }
    destruct (parse_include_array (VTable t)) as [es|?|]; cbn [bindr]; [|reflexivity|congruence].
    pose proof (include_all_no_panic fs es (remove "include" t)).
    destruct (include_all fs es (remove "include" t)); cbn; congruence.
Qed.

(** The pairs condition does not depend on the order of the files. *)
Lemma conflict_sym : forall a b, conflict a b -> conflict b a.
Proof. intros a b (p & na & nb & H1 & H2 & H3). exists p, nb, na. repeat split; auto. tauto. Qed.

Lemma ford_perm : forall (Q : value -> value -> Prop), (forall a b, Q a b -> Q b a) ->
  forall l l', Permutation l l' -> ForallOrdPairs Q l -> ForallOrdPairs Q l'.
Proof.
  intros Q Hsym l l' Hp. induction Hp as [|x l l' Hp IH|x y l|l l' l'' H1 IH1 H2 IH2]; intros H; auto.
  - inversion H as [|? ? Hf Ho]; subst. constructor; auto.
    rewrite Forall_forall in *. intros z Hz. apply Hf. apply (Permutation_in z (Permutation_sym Hp) Hz).
  - inversion H as [|? ? Hf Ho]; subst. inversion Ho as [|? ? Hf2 Ho2]; subst.
    inversion Hf; subst. constructor.
    + constructor; auto.
    + constructor; auto.
Qed.

Lemma loads_perm : forall fs l l', Permutation l l' -> forall files, loads fs l files ->
  exists files', loads fs l' files' /\ Permutation files files'.
Proof.
  intros fs l l' Hp. induction Hp as [|x l l' Hp IH|x y l|l l' l'' H1 IH1 H2 IH2]; intros files H.
  - exists files. split; auto.
  - inversion H as [|s path l0 fl Hn Ha Hf Hl|s path o t l0 fl Hn Ha Hf Hi Hl]; subst.
    + destruct (IH _ Hl) as (f' & Hl' & Hpf). exists f'. split; auto.
      apply (loads_skip fs x path); auto.
    + destruct (IH _ Hl) as (f' & Hl' & Hpf). exists (VTable t :: f'). split; auto.
      apply (loads_file fs x path o); auto.
  - inversion H as [|s path l0 fl Hn Ha Hf Hl|s path o t l0 fl Hn Ha Hf Hi Hl]; subst;
    inversion Hl as [|s2 path2 l2 fl2 Hn2 Ha2 Hf2 Hl2|s2 path2 o2 t2 l2 fl2 Hn2 Ha2 Hf2 Hi2 Hl2]; subst.
    + exists files. split; auto. apply (loads_skip fs x path2); auto. apply (loads_skip fs y path); auto.
    + exists (VTable t2 :: fl2). split; auto.
      apply (loads_file fs x path2 o2); auto. apply (loads_skip fs y path); auto.
    + exists (VTable t :: fl). split; auto. apply (loads_skip fs x path2); auto.
      apply (loads_file fs y path o); auto.
    + exists (VTable t2 :: VTable t :: fl2). split; [|apply perm_swap].
      apply (loads_file fs x path2 o2); auto. apply (loads_file fs y path o); auto.
  - destruct (IH1 _ H) as (f1 & Hl1 & Hp1). destruct (IH2 _ Hl1) as (f2 & Hl2 & Hp2).
    exists f2. split; auto. eapply perm_trans; eauto.
Qed.

Lemma loads_det : forall fs l f f', loads fs l f -> loads fs l f' -> f = f'.
Proof.
  intros fs l f f' H H'. apply loads_opened in H. apply loads_opened in H'.
  destruct H as (es & ts & Hp & Ho & ->). destruct H' as (es' & ts' & Hp' & Ho' & ->).
  assert (es = es') by congruence. subst. f_equal. apply (opened_det fs es'); auto.
Qed.

Lemma include_list_det : forall root l l', wf root ->
  include_list root l -> include_list root l' -> l = l'.
Proof.
  intros root l l' Hwf H H'. destruct root as [x|t]; [inversion H|].
  inversion Hwf; subst.
  inversion H as [t0 Ha|t0 l0 Hin]; subst; inversion H' as [t1 Ha'|t1 l1 Hin']; subst; auto.
  - exfalso. apply (Ha _ Hin').
  - exfalso. apply (Ha' _ Hin).
  - assert (E : Some (VLeaf (LStrings l)) = Some (VLeaf (LStrings l'))).
    { rewrite <- (get_nodup _ _ _ H1 Hin). now apply get_nodup. }
    injection E as ->. reflexivity.
Qed.

(** Two main files that differ only in the order of their include lists are
    both accepted or both rejected, and when accepted say the same. *)
Theorem C41_order : forall fs root root' l l', fs_wf fs -> wf root -> wf root' ->
  include_list root l -> include_list root' l' -> Permutation l l' ->
  (forall p n, own_says root p n <-> own_says root' p n) ->
  is_ok (resolve_includes fs root) = is_ok (resolve_includes fs root') /\
  forall m m', resolve_includes fs root = Ok m -> resolve_includes fs root' = Ok m' ->
    forall p n, says m p n <-> says m' p n.
Proof.
  intros fs root root' l l' Hfs Hwf Hwf' Hil Hil' Hp Hown.
  assert (Honly : forall r r' k k', wf r -> wf r' -> include_list r k -> include_list r' k' ->
     Permutation k k' -> (forall p n, own_says r p n <-> own_says r' p n) ->
     is_ok (resolve_includes fs r) = true -> is_ok (resolve_includes fs r') = true).
  { intros r r' k k' Hr Hr' Hk Hk' Hpk Ho H.
    apply (C41_exact fs r Hfs Hr) in H. destruct H as (k0 & files & H1 & H2 & H3 & H4).
    rewrite (include_list_det r k0 k Hr H1 Hk) in H2.
    destruct (loads_perm fs k k' Hpk files H2) as (files' & Hl & Hpf).
    apply (C41_exact fs r' Hfs Hr'). exists k', files'. split; auto. split; auto. split.
    - intros f Hin (p & na & nb & Ha & Hb & Hc). apply (H3 f).
      + apply (Permutation_in f (Permutation_sym Hpf) Hin).
      + exists p, na, nb. split; [now apply Ho|]. auto.
    - apply (ford_perm _ (fun a b H Hab => H (conflict_sym _ _ Hab)) files); auto. }
  split.
  - destruct (is_ok (resolve_includes fs root)) eqn:E.
    + symmetry. now apply (Honly root root' l l').
    + destruct (is_ok (resolve_includes fs root')) eqn:E'; auto.
      exfalso. assert (H : is_ok (resolve_includes fs root) = true).
      { apply (Honly root' root l' l); auto. now apply Permutation_sym.
        intros p n. symmetry. apply Hown. }
      congruence.
  - intros m m' E E' p n.
    destruct (C41_merged fs root m Hfs Hwf E) as (k & files & H1 & H2 & _ & H3 & _).
    destruct (C41_merged fs root' m' Hfs Hwf' E') as (k' & files' & H1' & H2' & _ & H3' & _).
    rewrite (include_list_det _ _ _ Hwf H1 Hil) in H2.
    rewrite (include_list_det _ _ _ Hwf' H1' Hil') in H2'.
    destruct (loads_perm fs l l' Hp files H2) as (f2 & Hl2 & Hpf).
    assert (f2 = files') by (apply (loads_det fs l'); auto). subst f2.
    rewrite H3, H3'. rewrite Hown. split; (intros [Ho|(f & Hin & Hs)]; [auto|right; exists f; split; auto]).
    + apply (Permutation_in f Hpf Hin).
    + apply (Permutation_in f (Permutation_sym Hpf) Hin).
Qed.

(** An accepted include path leads, from the directory of the main file, to
    that directory or below it. *)
Theorem C41_paths_stay_inside : forall path dir,
  validate_include_path path = Ok tt ->
  (forall r, path <> "/" ++ r) /\ exists down, walk dir (pieces path) = Some (down ++ dir)%list.
Proof.
  intros path dir H.
  assert (Ha : acceptable path) by (apply validate_acceptable; now rewrite H).
  destruct Ha as (_ & H1 & H2). split; [exact H1|]. now apply walk_down.
Qed.

(** A configuration that loads has no top-level key outside the allowed ones;
    in particular no include list is left, and none comes from an included
    file. *)
Theorem C41_top_level : forall fs root allowed m, fs_wf fs -> wf root ->
  load_merged fs root allowed = Ok m ->
  resolve_includes fs root = Ok m /\
  forall k p n, says m (k :: p) n -> In k allowed /\ k <> "include".
Proof.
  intros fs root allowed m Hfs Hwf H. unfold load_merged in H.
  destruct (resolve_includes fs root) as [m'|?|] eqn:E; cbn [bindr] in H; try discriminate.
  destruct (validate_top_level_keys m' allowed) as [u|?|] eqn:Ev; cbn [bindr] in H; try discriminate.
  injection H as <-. split; [reflexivity|].
  intros k p n Hs. split.
  - inversion Hs as [| |t k' v p' n' Hin _]; subst. cbn in Ev.
    destruct (forallb _ t) eqn:Ef; [|discriminate].
    rewrite forallb_forall in Ef. specialize (Ef _ Hin). cbn in Ef.
    apply existsb_exists in Ef. destruct Ef as (x & Hx & Heq).
    apply String.eqb_eq in Heq. now subst.
  - destruct (C41_merged fs root m' Hfs Hwf E) as (l & files & _ & Hl & _ & H3 & _).
    apply H3 in Hs. destruct Hs as [[_ Hh]|(f & Hin & Hs)].
    + cbn in Hh. congruence.
    + intros ->. clear - Hl Hin Hs.
      induction Hl as [|s path l files Hn Ha Hf Hl IH|s path o t l files Hn Ha Hf Hi Hl IH].
      * destruct Hin.
      * now apply IH.
      * destruct Hin as [<-|Hin]; [|auto].
        inversion Hs as [| |t' k' v p' n' Hin _]; subst. apply (Hi _ Hin).
Qed.

(** ** The hypotheses are met *)

Definition ex_secrets : table :=
  [("secrets", VTable [("xts", VTable [("source", VLeaf (LOther 7))])])].
Definition ex_tuning : table :=
  [("tuning", VTable [("num_queues", VLeaf (LOther 2))]);
   ("secrets", VTable [("kek", VTable [("source", VLeaf (LOther 8))])])].
Definition ex_fs (path : string) : file :=
  if String.eqb path "secrets.toml" then FTable ex_secrets
  else if String.eqb path "conf.d/tuning.toml" then FTable ex_tuning
  else FMissing.
Definition ex_root (l : list string) : value :=
  VTable [("include", VLeaf (LStrings l)); ("device", VTable [("data_path", VLeaf (LOther 1))])].

Lemma ex_fs_wf : fs_wf ex_fs.
Proof.
  intros path t. unfold ex_fs.
  destruct (String.eqb path "secrets.toml"); [intros H; injection H as <-|
    destruct (String.eqb path "conf.d/tuning.toml"); [intros H; injection H as <-|discriminate]];
  repeat (constructor; cbn; try (intuition discriminate)).
Qed.
Lemma ex_root_wf : forall l, wf (ex_root l).
Proof. intros l. repeat (constructor; cbn; try (intuition discriminate)). Qed.

Example C41_nonvacuous :
  resolve_includes ex_fs (ex_root ["secrets.toml"; "conf.d/tuning.toml"; "local.toml?"]) =
  Ok (VTable
    [("device", VTable [("data_path", VLeaf (LOther 1))]);
     ("secrets", VTable [("xts", VTable [("source", VLeaf (LOther 7))]);
                         ("kek", VTable [("source", VLeaf (LOther 8))])]);
     ("tuning", VTable [("num_queues", VLeaf (LOther 2))])]).
Proof. reflexivity. Qed.

Example C41_rejects_nonvacuous :
  is_err (resolve_includes ex_fs (ex_root ["secrets.toml"; "local.toml"])) = true /\
  is_err (resolve_includes ex_fs (ex_root ["secrets.toml"; "secrets.toml"])) = true /\
  is_err (resolve_includes ex_fs (ex_root ["conf.d/../secrets.toml"])) = true /\
  is_err (resolve_includes ex_fs (ex_root ["/etc/secrets.toml"])) = true.
Proof. repeat split. Qed.

Example C41_order_nonvacuous :
  Permutation ["secrets.toml"; "conf.d/tuning.toml"] ["conf.d/tuning.toml"; "secrets.toml"] /\
  include_list (ex_root ["secrets.toml"; "conf.d/tuning.toml"]) ["secrets.toml"; "conf.d/tuning.toml"] /\
  is_ok (resolve_includes ex_fs (ex_root ["conf.d/tuning.toml"; "secrets.toml"])) = true.
Proof. split; [apply perm_swap|]. split; [apply il_present; cbn; auto|reflexivity]. Qed.

Example C41_paths_nonvacuous :
  validate_include_path "./conf.d//a.toml" = Ok tt /\
  walk ["etc"; "ubiblk"] (pieces "./conf.d//a.toml") = Some ["a.toml"; "conf.d"; "etc"; "ubiblk"] /\
  walk ["etc"; "ubiblk"] (pieces "../x") = Some ["x"; "ubiblk"].
Proof. repeat split. Qed.

Example C41_top_level_nonvacuous :
  is_ok (load_merged ex_fs (ex_root ["secrets.toml"]) ["device"; "secrets"]) = true /\
  is_ok (load_merged ex_fs (ex_root ["conf.d/tuning.toml"]) ["device"; "secrets"]) = false.
Proof. split; reflexivity. Qed.

Print Assumptions C41_merged.
Print Assumptions C41_exact.
Print Assumptions C41_order.
Print Assumptions C41_paths_stay_inside.
Print Assumptions C41_top_level.
