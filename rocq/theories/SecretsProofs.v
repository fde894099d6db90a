(** Proofs about resolving secrets. *)
From Coq Require Import List NArith ZArith Bool Arith Lia String ZifyBool ZifyNat ZifyN Permutation.
From Verif Require Import Base BaseFacts SecretsModel SecretsSpec.
Import ListNotations.

(** * Maps *)

Lemma lookup_in : forall A k (l : list (string * A)) v, lookup k l = Some v -> In (k, v) l.
Proof.
  induction l as [|[k' v'] l IH]; cbn; intros v H; [discriminate|].
  destruct (String.eqb_spec k k'); [injection H as <-; subst; auto|right; auto].
Qed.

Lemma lookup_nodup : forall A k (l : list (string * A)) v,
  NoDup (map fst l) -> In (k, v) l -> lookup k l = Some v.
Proof.
  induction l as [|[k' v'] l IH]; cbn; intros v Hnd Hin; [contradiction|].
  inversion Hnd as [|? ? Hnotin Hnd']; subst.
  destruct Hin as [E|Hin].
  - injection E as -> ->. now rewrite String.eqb_refl.
  - destruct (String.eqb_spec k k') as [E|Hn]; [|auto].
    exfalso. apply Hnotin. apply in_map_iff. exists (k, v). subst. auto.
Qed.

Lemma lookup_none : forall A k (l : list (string * A)), lookup k l = None <-> ~ In k (map fst l).
Proof.
  induction l as [|[k' v'] l IH]; cbn; [tauto|].
  destruct (String.eqb_spec k k') as [E|Hn].
  - split; [discriminate|]. intros H. exfalso. apply H. auto.
  - rewrite IH. split; [intros H [E|Hi]; [congruence|auto]|tauto].
Qed.

Lemma lookup_some_key : forall A k (l : list (string * A)),
  In k (map fst l) -> exists v, lookup k l = Some v.
Proof.
  intros A k l H. destruct (lookup k l) eqn:E; [eauto|]. apply lookup_none in E. contradiction.
Qed.

(** * One secret *)

Lemma limit_is : FILE_READ_LIMIT = 10929%N.
Proof. reflexivity. Qed.

Lemma load_source_ok : forall w src enc dz b,
  load_source w src enc dz = Ok b <-> permitted w dz src enc /\ holds w src b.
Proof.
  intros w src enc dz b. destruct src as [path|data|var]; cbn [load_source].
  - unfold load_file_source. split.
    + destruct (w_open w path) as [[regular content]|] eqn:Eo; [|discriminate].
      destruct (regular && negb (dz_enabled dz && dz_regular_file dz)) eqn:Eg; [discriminate|].
      destruct content as [c|]; [|discriminate]. intros H. apply Ok_inj in H. subst b. split.
      * destruct regular; [|now apply (p_special_file w dz path (Some c))].
        cbn in Eg. apply negb_false_iff, andb_true_iff in Eg. destruct Eg.
        now apply (p_regular_file w dz path (Some c)).
      * rewrite limit_is. now apply (h_file w path regular).
    + intros [Hp Hh]. rewrite limit_is. inversion Hh as [? regular c Ho| |]; subst. rewrite Ho.
      inversion Hp as [? content ? Ho'|? content ? Ho' He Hr| | |]; subst; rewrite Ho in Ho'; injection Ho' as -> <-.
      * reflexivity.
      * rewrite He, Hr. reflexivity.
  - unfold load_inline_source. split.
    + destruct (negb (enc || dz_enabled dz && dz_inline_secrets dz)) eqn:E; [discriminate|].
      intros H. injection H as <-. split; [|constructor].
      apply negb_false_iff, orb_true_iff in E. destruct enc; [constructor|].
      destruct E as [E|E]; [discriminate|]. apply andb_true_iff in E. destruct E. now constructor.
    + intros [Hp Hh]. inversion Hh; subst. inversion Hp as [| | |? He Hi|]; subst; [reflexivity|].
      rewrite He, Hi. reflexivity.
  - unfold load_env_source. split.
    + destruct (negb (dz_enabled dz && dz_env_secrets dz)) eqn:E; [discriminate|].
      destruct (w_getenv w var) eqn:Ev; [|discriminate]. intros H. injection H as <-.
      apply negb_false_iff, andb_true_iff in E. destruct E. split; [now constructor|now constructor].
    + intros [Hp Hh]. inversion Hh as [| |? ? Hv]; subst. inversion Hp as [| | | |? ? He Hi]; subst.
      rewrite He, Hi, Hv. reflexivity.
Qed.

Lemma load_source_no_panic : forall w src enc dz, load_source w src enc dz <> Panic.
Proof.
  intros w [p|d|v] enc dz; cbn.
  - unfold load_file_source. destruct (w_open w p) as [[r c]|]; [|discriminate].
    destruct (r && _); [discriminate|]. destruct c; discriminate.
  - unfold load_inline_source. destruct (negb _); discriminate.
  - unfold load_env_source. destruct (negb _); [discriminate|]. destruct (w_getenv w v); discriminate.
Qed.

Lemma drop_ws_split : forall l, exists white, l = white ++ drop_ws l /\
  Forall (fun c => ascii_ws c = true) white.
Proof.
  induction l as [|b l [white [IH1 IH2]]]; [exists []; split; [auto|constructor]|].
  cbn. destruct (ascii_ws b) eqn:E.
  - exists (b :: white). split; [cbn; now f_equal|constructor; auto].
  - exists []. split; [auto|constructor].
Qed.

Lemma drop_ws_head : forall l c t, drop_ws l = c :: t -> ascii_ws c = false.
Proof.
  induction l as [|b l IH]; cbn; intros c t H; [discriminate|].
  destruct (ascii_ws b) eqn:E; [eauto|]. injection H as <- _. exact E.
Qed.

Lemma trim_split : forall l, exists white, l = trim_ascii_end l ++ white /\
  Forall (fun c => ascii_ws c = true) white.
Proof.
  intros l. destruct (drop_ws_split (rev l)) as (white & H1 & H2).
  exists (rev white). split.
  - unfold trim_ascii_end. rewrite <- rev_app_distr, <- H1. now rewrite rev_involutive.
  - now apply Forall_rev.
Qed.

Lemma trim_last : forall l t c, trim_ascii_end l = t ++ [c] -> ascii_ws c = false.
Proof.
  intros l t c H. unfold trim_ascii_end in H.
  apply (f_equal (@rev _)) in H. rewrite rev_involutive, rev_app_distr in H. cbn in H.
  now apply drop_ws_head in H.
Qed.

Lemma drop_ws_exact : forall white rest, Forall (fun c => ascii_ws c = true) white ->
  (forall c t, rest = c :: t -> ascii_ws c = false) -> drop_ws (white ++ rest) = rest.
Proof.
  intros white rest Hw Hr. induction Hw as [|c white Hc Hw IH]; cbn.
  - destruct rest as [|c t]; [reflexivity|]. cbn. now rewrite (Hr c t eq_refl).
  - now rewrite Hc.
Qed.

Lemma trim_exact : forall text white, Forall (fun c => ascii_ws c = true) white ->
  (forall t' c, text = t' ++ [c] -> ascii_ws c = false) -> trim_ascii_end (text ++ white) = text.
Proof.
  intros text white Hw Ht. unfold trim_ascii_end. rewrite rev_app_distr.
  rewrite drop_ws_exact; [apply rev_involutive|now apply Forall_rev|].
  intros c t E. apply (Ht (rev t) c). rewrite <- (rev_involutive text), E. reflexivity.
Qed.

Lemma length_ok : forall b, is_ok (validate_secret_length b) = true <->
  (N.of_nat (List.length b) <= 8192)%N.
Proof.
  intros b. unfold validate_secret_length, MAX_SECRET_BYTES.
  destruct (N.leb_spec (N.of_nat (List.length b)) 8192); cbn; split; intros; auto; try discriminate; lia.
Qed.

(** The part common to both kinds of secrets. *)
Definition fetch (w : world) (def : secret_def) (enc : bool) (dz : danger_zone) : res (list byte) :=
  let! raw := load_source w (sd_source def) enc dz in
  let! b := decode w raw (sd_encoding def) in
  let! _ := validate_secret_length b in Ok b.

Lemma fetch_ok : forall w def enc dz b, fetch w def enc dz = Ok b <->
  permitted w dz (sd_source def) enc /\ stands_for w def b.
Proof.
  intros w def enc dz b. unfold fetch. split.
  - destruct (load_source w (sd_source def) enc dz) as [raw|?|] eqn:El; cbn [bindr]; try discriminate.
    apply load_source_ok in El. destruct El as [Hp Hh].
    destruct (decode w raw (sd_encoding def)) as [d|?|] eqn:Ed; cbn [bindr]; try discriminate.
    destruct (validate_secret_length d) as [u|?|] eqn:Ev; cbn [bindr]; try discriminate.
    intros H. injection H as <-. split; [exact Hp|].
    assert (Hlen : (N.of_nat (List.length d) <= 8192)%N) by (apply length_ok; now rewrite Ev).
    unfold decode in Ed. destruct (sd_encoding def) eqn:Ee.
    + injection Ed as <-. now apply sf_plain.
    + destruct (w_base64 w (trim_ascii_end raw)) as [d'|] eqn:Eb; [|discriminate].
      injection Ed as <-. destruct (trim_split raw) as (white & H1 & H2).
      apply (sf_base64 w def raw (trim_ascii_end raw) white); auto. apply trim_last.
  - intros [Hp Hs].
    assert (Hcase : exists raw d, holds w (sd_source def) raw /\ decode w raw (sd_encoding def) = Ok d /\
       d = b /\ (N.of_nat (List.length b) <= 8192)%N).
    { inversion Hs as [raw Hh He Hl|raw text white b' Hh He Hr Hw Hn Hb Hl]; subst.
      - exists b, b. rewrite He. auto.
      - exists (text ++ white), b. rewrite He. cbn. rewrite (trim_exact text white Hw Hn), Hb. auto. }
    destruct Hcase as (raw & d & Hh & Hd & -> & Hl).
    assert (El : load_source w (sd_source def) enc dz = Ok raw) by (apply load_source_ok; auto).
    rewrite El. cbn [bindr]. rewrite Hd. cbn [bindr].
    apply length_ok in Hl. destruct (validate_secret_length b); [reflexivity|discriminate|discriminate].
Qed.

Lemma fetch_no_panic : forall w def enc dz, fetch w def enc dz <> Panic.
Proof.
  intros w def enc dz. unfold fetch.
  pose proof (load_source_no_panic w (sd_source def) enc dz).
  destruct (load_source w (sd_source def) enc dz); cbn [bindr]; try congruence.
  unfold decode. destruct (sd_encoding def).
  - cbn [bindr]. unfold validate_secret_length. destruct (_ <=? _)%N; discriminate.
  - destruct (w_base64 w (trim_ascii_end a)); cbn [bindr]; try discriminate.
    unfold validate_secret_length. destruct (_ <=? _)%N; discriminate.
Qed.

Lemma stands_for_det : forall w dz def enc b b', permitted w dz (sd_source def) enc ->
  stands_for w def b -> stands_for w def b' -> b = b'.
Proof.
  intros w dz def enc b b' Hp H H'.
  assert (fetch w def enc dz = Ok b) by (apply fetch_ok; auto).
  assert (fetch w def enc dz = Ok b') by (apply fetch_ok; auto).
  congruence.
Qed.

Lemma maybe_unfold : forall w name def resolved dz,
  maybe_resolve_secret w name def resolved dz =
  match sd_kek def with
  | Some kek =>
      match lookup kek resolved with
      | None => Ok None
      | Some kb => let! ct := fetch w def true dz in
          match w_gcm w kb (bytes_of name) ct with Some b => Ok (Some b) | None => Err 9 end
      end
  | None => let! b := fetch w def false dz in Ok (Some b)
  end.
Proof.
  intros. unfold maybe_resolve_secret, fetch. destruct (sd_kek def) as [kek|].
  - destruct (lookup kek resolved); [|reflexivity].
    destruct (load_source w (sd_source def) true dz); [|reflexivity|reflexivity]. cbn [bindr].
    destruct (decode w a (sd_encoding def)); [|reflexivity|reflexivity]. cbn [bindr].
    destruct (validate_secret_length a0); reflexivity.
  - destruct (load_source w (sd_source def) false dz); [|reflexivity|reflexivity]. cbn [bindr].
    destruct (decode w a (sd_encoding def)); [|reflexivity|reflexivity]. cbn [bindr].
    destruct (validate_secret_length a0); reflexivity.
Qed.

Lemma maybe_no_panic : forall w name def resolved dz,
  maybe_resolve_secret w name def resolved dz <> Panic.
Proof.
  intros. rewrite maybe_unfold. destruct (sd_kek def) as [kek|].
  - destruct (lookup kek resolved); [|discriminate].
    pose proof (fetch_no_panic w def true dz).
    destruct (fetch w def true dz); cbn [bindr]; try congruence.
    destruct (w_gcm w l (bytes_of name) a); discriminate.
  - pose proof (fetch_no_panic w def false dz).
    destruct (fetch w def false dz); cbn [bindr]; congruence.
Qed.

Section Resolve.
  Context (w : world) (dz : danger_zone) (defs : list (string * secret_def)).
  Context (Hnd : NoDup (map fst defs)).

  Lemma def_det : forall name d d', In (name, d) defs -> In (name, d') defs -> d = d'.
  Proof.
    intros name d d' H H'. apply (lookup_nodup _ _ _ _ Hnd) in H. apply (lookup_nodup _ _ _ _ Hnd) in H'.
    congruence.
  Qed.

  Lemma value_of_det : forall name b b', value_of w dz defs name b -> value_of w dz defs name b' -> b = b'.
  Proof.
    intros name b b' H. revert b'.
    induction H as [name def b Hin Hk Hp Hs|name def kek kb ct b Hin Hk Hv IH Hp Hs Hg]; intros b' H'.
    - inversion H' as [n' d' x Hin' Hk' Hp' Hs'|n' d' kek' kb' ct' x Hin' Hk' Hv' Hp' Hs' Hg']; subst.
      + rewrite (def_det _ _ _ Hin' Hin) in *. apply (stands_for_det w dz def false); auto.
      + rewrite (def_det _ _ _ Hin' Hin) in *. congruence.
    - inversion H' as [n' d' x Hin' Hk' Hp' Hs'|n' d' kek' kb' ct' x Hin' Hk' Hv' Hp' Hs' Hg']; subst.
      + rewrite (def_det _ _ _ Hin' Hin) in *. congruence.
      + rewrite (def_det _ _ _ Hin' Hin) in *.
        assert (kek' = kek) by congruence. subst.
        assert (kb = kb') by (apply IH; auto). subst.
        assert (ct' = ct) by (apply (stands_for_det w dz def true); auto). subst. congruence.
  Qed.

  Definition good (resolved : resolved_map) : Prop :=
    forall name b, In (name, b) resolved -> value_of w dz defs name b.

  (** [maybe_resolve_secret] against the specification. *)
  Lemma maybe_some : forall name def resolved b, good resolved -> In (name, def) defs ->
    maybe_resolve_secret w name def resolved dz = Ok (Some b) -> value_of w dz defs name b.
  Proof.
    intros name def resolved b Hg Hin H. rewrite maybe_unfold in H.
    destruct (sd_kek def) as [kek|] eqn:Ek.
    - destruct (lookup kek resolved) as [kb|] eqn:El; [|discriminate].
      destruct (fetch w def true dz) as [ct|?|] eqn:Ef; cbn [bindr] in H; try discriminate.
      destruct (w_gcm w kb (bytes_of name) ct) as [b'|] eqn:Eg; [|discriminate].
      injection H as ->. apply fetch_ok in Ef. destruct Ef as [Hp Hs].
      apply (vo_encrypted w dz defs name def kek kb ct b); auto.
      apply Hg. now apply lookup_in.
    - destruct (fetch w def false dz) as [b'|?|] eqn:Ef; cbn [bindr] in H; try discriminate.
      injection H as ->. apply fetch_ok in Ef. destruct Ef as [Hp Hs].
      now apply (vo_plain w dz defs name def b).
  Qed.

  Lemma maybe_none : forall name def resolved,
    maybe_resolve_secret w name def resolved dz = Ok None ->
    exists kek, sd_kek def = Some kek /\ lookup kek resolved = None.
  Proof.
    intros name def resolved H. rewrite maybe_unfold in H.
    destruct (sd_kek def) as [kek|] eqn:Ek.
    - destruct (lookup kek resolved) as [kb|] eqn:El; [|eauto].
      destruct (fetch w def true dz) as [ct|?|] eqn:Ef; cbn [bindr] in H; try discriminate.
      destruct (w_gcm w kb (bytes_of name) ct); discriminate.
    - destruct (fetch w def false dz) as [b'|?|] eqn:Ef; cbn [bindr] in H; discriminate.
  Qed.

  Lemma maybe_complete : forall name def resolved b, good resolved -> In (name, def) defs ->
    value_of w dz defs name b ->
    maybe_resolve_secret w name def resolved dz = Ok (Some b) \/
    (maybe_resolve_secret w name def resolved dz = Ok None /\
     exists kek, sd_kek def = Some kek /\ lookup kek resolved = None).
  Proof.
    intros name def resolved b Hg Hin Hv. rewrite maybe_unfold.
    inversion Hv as [n' d' x Hin' Hk' Hp' Hs'|n' d' kek' kb' ct' x Hin' Hk' Hv' Hp' Hs' Hg']; subst;
      rewrite (def_det _ _ _ Hin' Hin) in *; rewrite Hk'.
    - left. assert (E : fetch w def false dz = Ok b) by (apply fetch_ok; auto). now rewrite E.
    - destruct (lookup kek' resolved) as [kb|] eqn:El.
      + left. assert (kb = kb') by (apply (value_of_det kek'); auto; apply Hg; now apply lookup_in).
        subst. assert (E : fetch w def true dz = Ok ct') by (apply fetch_ok; auto).
        rewrite E. cbn [bindr]. now rewrite Hg'.
      + right. split; eauto.
  Qed.

  (** * One pass *)
  Lemma pass_sound : forall rem resolved left resolved',
    (forall nd, In nd rem -> In nd defs) -> good resolved ->
    pass w dz rem resolved = Ok (left, resolved') ->
    good resolved' /\
    Permutation (map fst left ++ map fst resolved') (map fst rem ++ map fst resolved) /\
    (forall nd, In nd left -> In nd rem) /\
    (forall name b, In (name, b) resolved -> In (name, b) resolved').
  Proof.
    induction rem as [|[name def] rest IH]; intros resolved left resolved' Hin Hg H; cbn [pass] in H.
    - injection H as <- <-. split; [exact Hg|]. split; [apply Permutation_refl|]. auto.
    - destruct (maybe_resolve_secret w name def resolved dz) as [[b|]|?|] eqn:Em; cbn [bindr] in H; try discriminate.
      + apply IH in H; [|intros nd Hnd'; apply Hin; now right|].
        * destruct H as (H1 & H2 & H3 & H4). split; [exact H1|]. split.
          { eapply perm_trans; [exact H2|]. cbn. apply Permutation_sym, Permutation_middle. }
          split; [intros nd Hnd'; right; auto|]. intros n0 b0 H0. apply H4. now right.
        * intros n0 b0 [E|H0]; [|auto]. injection E as <- <-.
          apply (maybe_some name def resolved b); auto. apply Hin. now left.
      + destruct (pass w dz rest resolved) as [[l' r']|?|] eqn:Ep; cbn [bindr] in H; try discriminate.
        injection H as <- <-.
        destruct (IH resolved l' r') as (H1 & H2 & H3 & H4); auto.
        { intros nd Hnd'. apply Hin. now right. }
        split; [exact H1|]. split; [cbn; now constructor|]. split; [|auto].
        intros nd [E|Hi]; [left; auto|right; auto].
  Qed.

  Lemma pass_no_panic : forall rem resolved, pass w dz rem resolved <> Panic.
  Proof.
    induction rem as [|[name def] rest IH]; intros resolved; cbn [pass]; [discriminate|].
    pose proof (maybe_no_panic w name def resolved dz).
    destruct (maybe_resolve_secret w name def resolved dz) as [[b|]|?|]; cbn [bindr]; try congruence; auto.
    specialize (IH resolved).
    destruct (pass w dz rest resolved) as [[l r]|?|]; cbn [bindr]; congruence.
  Qed.

  Lemma pass_complete : (forall name, In name (map fst defs) -> exists b, value_of w dz defs name b) ->
    forall rem resolved, (forall nd, In nd rem -> In nd defs) -> good resolved ->
    exists left resolved', pass w dz rem resolved = Ok (left, resolved') /\
      (forall name def, In (name, def) left -> exists kek, sd_kek def = Some kek /\ lookup kek resolved = None).
  Proof.
    intros Hall. induction rem as [|[name def] rest IH]; intros resolved Hin Hg; cbn [pass].
    - exists [], resolved. split; [reflexivity|]. intros n d [].
    - assert (Hd : In (name, def) defs) by (apply Hin; now left).
      destruct (Hall name) as [b Hb]; [apply in_map_iff; exists (name, def); auto|].
      destruct (maybe_complete name def resolved b Hg Hd Hb) as [E|[E (kek & Hk & Hl)]]; rewrite E; cbn [bindr].
      + destruct (IH ((name, b) :: resolved)) as (l & r & Hp & Hx).
        * intros nd Hnd'. apply Hin. now right.
        * intros n0 b0 [E0|H0]; [injection E0 as <- <-; auto|auto].
        * exists l, r. split; [exact Hp|]. intros n0 d0 H0. destruct (Hx n0 d0 H0) as (k & Hk & Hl).
          exists k. split; auto. cbn in Hl. destruct (String.eqb k name); [discriminate|auto].
      + destruct (IH resolved) as (l & r & Hp & Hx); auto.
        { intros nd Hnd'. apply Hin. now right. }
        rewrite Hp. cbn [bindr]. exists ((name, def) :: l), r. split; [reflexivity|].
        intros n0 d0 [E0|H0]; [injection E0 as <- <-; eauto|eauto].
  Qed.

  (** * The loop *)
  Record inv (rem : list (string * secret_def)) (resolved : resolved_map) : Prop := {
    i_rem : forall nd, In nd rem -> In nd defs;
    i_good : good resolved;
    i_perm : Permutation (map fst rem ++ map fst resolved) (map fst defs)
  }.

  Lemma inv_pass : forall rem resolved left resolved', inv rem resolved ->
    pass w dz rem resolved = Ok (left, resolved') -> inv left resolved'.
  Proof.
    intros rem resolved left resolved' [H1 H2 H3] Hp.
    destruct (pass_sound rem resolved left resolved' H1 H2 Hp) as (K1 & K2 & K3 & _).
    constructor; auto. eapply perm_trans; eauto.
  Qed.

  Lemma inv_lengths : forall rem resolved, inv rem resolved ->
    List.length rem + List.length resolved = List.length defs.
  Proof.
    intros rem resolved [_ _ H]. apply Permutation_length in H.
    rewrite app_length, !map_length in H. exact H.
  Qed.

  Lemma loop_sound : forall passes rem resolved r, inv rem resolved ->
    loop w dz passes (List.length defs) rem resolved = Ok r ->
    good r /\ Permutation (map fst r) (map fst defs).
  Proof.
    induction passes as [|passes IH]; intros rem resolved r Hi H; cbn [loop] in H.
    - destruct (Nat.ltb_spec (List.length resolved) (List.length defs)); [discriminate|].
      injection H as <-. pose proof (inv_lengths _ _ Hi). destruct Hi as [H2 H3 H4].
      split; [auto|]. assert (rem = []) by (destruct rem; [auto|cbn in *; lia]). subst. exact H4.
    - destruct (Nat.ltb_spec (List.length resolved) (List.length defs)).
      + destruct (pass w dz rem resolved) as [[l r']|?|] eqn:Ep; cbn [bindr] in H; try discriminate.
        destruct (Nat.eqb_spec (List.length l) (List.length rem)); [discriminate|].
        apply (IH l r'); auto. apply (inv_pass rem resolved); auto.
      + injection H as <-. pose proof (inv_lengths _ _ Hi). destruct Hi as [H2 H3 H4].
        split; [auto|]. assert (rem = []) by (destruct rem; [auto|cbn in *; lia]). subst. exact H4.
  Qed.

  Lemma pass_length : forall rem resolved left resolved',
    pass w dz rem resolved = Ok (left, resolved') -> List.length left <= List.length rem.
  Proof.
    induction rem as [|[name def] rest IH]; intros resolved left resolved' H; cbn [pass] in H.
    - injection H as <- <-. auto.
    - destruct (maybe_resolve_secret w name def resolved dz) as [[b|]|?|] eqn:Em; cbn [bindr] in H; try discriminate.
      + apply IH in H. cbn. lia.
      + destruct (pass w dz rest resolved) as [[l' r']|?|] eqn:Ep; cbn [bindr] in H; try discriminate.
        injection H as <- <-. apply IH in Ep. cbn. lia.
  Qed.

  Lemma loop_no_panic : forall passes rem resolved, inv rem resolved ->
    List.length rem <= passes -> loop w dz passes (List.length defs) rem resolved <> Panic.
  Proof.
    induction passes as [|passes IH]; intros rem resolved Hi Hlen; cbn [loop];
      pose proof (inv_lengths _ _ Hi);
      destruct (Nat.ltb_spec (List.length resolved) (List.length defs)); try discriminate.
    - lia.
    - pose proof (pass_no_panic rem resolved).
      destruct (pass w dz rem resolved) as [[l r']|?|] eqn:Ep; cbn [bindr]; try congruence.
      pose proof (pass_length _ _ _ _ Ep).
      destruct (Nat.eqb_spec (List.length l) (List.length rem)); [discriminate|].
      apply IH; [apply (inv_pass rem resolved); auto|lia].
  Qed.

  (** Some remaining secret has its key resolved already. *)
  Lemma ready : forall rem resolved, inv rem resolved ->
    forall name b, value_of w dz defs name b -> In name (map fst rem) ->
    exists n d, In (n, d) rem /\
      (sd_kek d = None \/ exists kek kb, sd_kek d = Some kek /\ lookup kek resolved = Some kb).
  Proof.
    intros rem resolved Hi name b Hv.
    induction Hv as [name def b Hin Hk Hp Hs|name def kek kb ct b Hin Hk Hv IH Hp Hs Hg]; intros Hr.
    - apply in_map_iff in Hr. destruct Hr as ([n d] & E & Hr). cbn in E. subst n.
      exists name, d. split; auto. left.
      now rewrite (def_det _ _ _ (i_rem _ _ Hi _ Hr) Hin).
    - apply in_map_iff in Hr. destruct Hr as ([n d] & E & Hr). cbn in E. subst n.
      destruct (lookup kek resolved) as [kb'|] eqn:El.
      + exists name, d. split; auto. right. exists kek, kb'. split; auto.
        now rewrite (def_det _ _ _ (i_rem _ _ Hi _ Hr) Hin).
      + apply IH. apply lookup_none in El.
        assert (Hkd : In kek (map fst defs)).
        { inversion Hv as [? d0 ? Hd0|? d0 ? ? ? ? Hd0]; subst; apply in_map_iff; exists (kek, d0); auto. }
        apply (Permutation_in kek (Permutation_sym (i_perm _ _ Hi))) in Hkd.
        apply in_app_iff in Hkd. tauto.
  Qed.

  Lemma loop_complete : (forall name, In name (map fst defs) -> exists b, value_of w dz defs name b) ->
    forall passes rem resolved, inv rem resolved -> List.length rem <= passes ->
    is_ok (loop w dz passes (List.length defs) rem resolved) = true.
  Proof.
    intros Hall. induction passes as [|passes IH]; intros rem resolved Hi Hlen; cbn [loop];
      pose proof (inv_lengths _ _ Hi) as HL;
      destruct (Nat.ltb_spec (List.length resolved) (List.length defs)); try reflexivity.
    - lia.
    - destruct (pass_complete Hall rem resolved (i_rem _ _ Hi) (i_good _ _ Hi)) as (l & r & Hp & Hx).
      rewrite Hp. cbn [bindr].
      pose proof (pass_length _ _ _ _ Hp) as Hle.
      destruct (Nat.eqb_spec (List.length l) (List.length rem)) as [E|Hne].
      + exfalso.
        destruct (pass_sound rem resolved l r (i_rem _ _ Hi) (i_good _ _ Hi) Hp) as (_ & HP & Hsub & _).
        assert (Hnone : exists name, In name (map fst rem)).
        { destruct rem as [|[n d] rem']; [cbn in *; lia|]. exists n. cbn. auto. }
        destruct Hnone as [name Hname].
        destruct (Hall name) as [b Hb].
        { apply (Permutation_in name (i_perm _ _ Hi)). apply in_app_iff. auto. }
        destruct (ready rem resolved Hi name b Hb Hname) as (n & d & Hnd' & Hready).
        (* [l] keeps every name of [rem], so it holds [n] *)
        assert (Hnl : In n (map fst l)).
        { assert (HN : NoDup (map fst l)).
          { pose proof (inv_pass rem resolved l r Hi Hp) as Hi'.
            assert (Hnda : NoDup (map fst l ++ map fst r)).
            { apply (Permutation_NoDup (Permutation_sym (i_perm _ _ Hi')) Hnd). }
            clear - Hnda. induction (map fst l) as [|x xs IHx]; [constructor|].
            cbn in Hnda. inversion Hnda; subst. constructor; auto.
            intros Hx. apply H1. apply in_app_iff. auto. }
          assert (Hincl : incl (map fst rem) (map fst l)).
          { apply NoDup_length_incl; auto.
            - rewrite !map_length. lia.
            - intros x Hx0. apply in_map_iff in Hx0. destruct Hx0 as (nd & <- & Hx0).
              apply in_map. auto. }
          apply Hincl. apply in_map_iff. exists (n, d). auto. }
        apply in_map_iff in Hnl. destruct Hnl as ([n' d'] & En & Hnl). cbn in En. subst n'.
        assert (d' = d).
        { apply (def_det n); apply (i_rem _ _ Hi); auto. }
        subst d'. destruct (Hx n d Hnl) as (kek & Hk & Hl).
        destruct Hready as [Hr|(kek' & kb & Hk' & Hl')]; congruence.
      + apply IH; [apply (inv_pass rem resolved); auto|lia].
  Qed.

  Lemma inv_start : inv defs [].
  Proof.
    constructor; auto.
    - intros n b [].
    - cbn. rewrite app_nil_r. apply Permutation_refl.
  Qed.

  Lemma missing_false : existsb (kek_missing defs) defs = false <->
    forall name def kek, In (name, def) defs -> sd_kek def = Some kek -> In kek (map fst defs).
  Proof.
    split.
    - intros H name def kek Hin Hk.
      destruct (lookup kek defs) as [d|] eqn:El.
      + apply in_map_iff. exists (kek, d). split; [auto|now apply lookup_in].
      + exfalso. assert (Ht : existsb (kek_missing defs) defs = true).
        { apply existsb_exists. exists (name, def). split; auto.
          unfold kek_missing. cbn. now rewrite Hk, El. }
        congruence.
    - intros H. destruct (existsb (kek_missing defs) defs) eqn:E; auto.
      apply existsb_exists in E. destruct E as ([name def] & Hin & Hm).
      unfold kek_missing in Hm. cbn in Hm.
      destruct (sd_kek def) as [kek|] eqn:Hk; [|discriminate].
      destruct (lookup kek defs) eqn:El; [discriminate|].
      apply lookup_none in El. exfalso. apply El. apply (H name def kek); auto.
  Qed.

  Lemma value_of_defined : forall name b, value_of w dz defs name b -> In name (map fst defs).
  Proof.
    intros name b H. inversion H as [? d ? Hin|? d ? ? ? ? Hin]; subst;
      apply in_map_iff; exists (name, d); auto.
  Qed.

  (** A secret under itself has no value. *)
  Lemma value_under : forall a b, under defs a b -> forall x, value_of w dz defs a x ->
    exists y, value_of w dz defs b y.
  Proof.
    intros a b H. induction H as [a def b Hin Hk|a def k b Hin Hk H IH]; intros x Hx;
    (inversion Hx as [n' d' x' Hin' Hk' Hp' Hs'|n' d' kek' kb' ct' x' Hin' Hk' Hv' Hp' Hs' Hg']; subst;
      rewrite (def_det _ _ _ Hin' Hin) in *; [congruence|]).
    - assert (kek' = b) by congruence. subst. eauto.
    - assert (kek' = k) by congruence. subst. eauto.
  Qed.

  Lemma value_acyclic : forall a x, value_of w dz defs a x -> ~ under defs a a.
  Proof.
    intros a x H.
    assert (Hun : forall p q def k, In (p, def) defs -> sd_kek def = Some k -> under defs p q ->
              k = q \/ under defs k q).
    { intros p q def k Hin Hk Hu. inversion Hu as [? d ? Hin' Hk'|? d k0 ? Hin' Hk' Hu']; subst;
      rewrite (def_det _ _ _ Hin' Hin) in *; rewrite Hk in Hk'; injection Hk' as <-; auto. }
    assert (Happ : forall p q d k, under defs p q -> In (q, d) defs -> sd_kek d = Some k -> under defs p k).
    { intros p q d k Hu. induction Hu as [p def q Hin Hk|p def m q Hin Hk Hu IH]; intros Hq Hkq.
      - apply (under_more defs p def q); auto. now apply (under_one defs q d).
      - apply (under_more defs p def m); auto. }
    induction H as [name def b Hin Hk Hp Hs|name def kek kb ct b Hin Hk Hv IH Hp Hs Hg]; intros Hu.
    - inversion Hu as [? d ? Hin' Hk'|? d k0 ? Hin' Hk' Hu']; subst;
        rewrite (def_det _ _ _ Hin' Hin) in *; congruence.
    - destruct (Hun name name def kek Hin Hk Hu) as [E|Hu'].
      + subst kek. auto.
      + apply IH. apply (Happ kek name def kek); auto.
  Qed.
End Resolve.
