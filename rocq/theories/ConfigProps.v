(** C43: insecure configurations need explicit opt-in.
    C52: relative paths are relative to the configuration file. *)
From Coq Require Import List NArith ZArith Bool Lia String Ascii ZifyBool ZifyNat ZifyN Permutation.
From Verif Require Import Base BaseFacts IncludesModel SecretsModel SecretsSpec SecretsProofs SecretsProps ConfigModel TuningProps.
Import ListNotations.
Local Open Scope N_scope.

(** ** What must be opted into *)

(** A danger-zone flag counts only when the danger zone is enabled too. *)
Definition opted (dz : danger_zone) (flag : danger_zone -> bool) : Prop :=
  dz_enabled dz = true /\ flag dz = true.

(** The secrets of a configuration file in directory [dir] are given safely,
    or the operator opted in. *)
Definition secrets_allowed (w : world) (dir : string) (dz : danger_zone)
    (defs : list (string * secret_def)) : Prop :=
  forall name def, In (name, def) defs ->
    match sd_source def with
    | SInline _ => sd_kek def = None -> opted dz dz_inline_secrets
    | SEnv _ => opted dz dz_env_secrets
    | SFile path => forall content, w_open w (resolve_path dir path) = Some (true, content) ->
                    opted dz dz_regular_file
    end.

Definition remote_allowed (dz : danger_zone) (r : remote) : Prop :=
  r_psk r = None -> opted dz dz_unencrypted_connection.

Lemma resolved_names : forall dir defs, map fst (resolve_secret_paths dir defs) = map fst defs.
Proof. intros. unfold resolve_secret_paths. rewrite map_map. reflexivity. Qed.

Lemma common_allowed : forall w dir dz defs r, distinct defs ->
  load_common w dir dz defs = Ok r -> secrets_allowed w dir dz defs.
Proof.
  intros w dir dz defs r Hnd H name def Hin. unfold load_common in H.
  assert (Hnd' : distinct (resolve_secret_paths dir defs)) by (unfold distinct; now rewrite resolved_names).
  assert (Hin' : In (name, resolve_secret_path dir def) (resolve_secret_paths dir defs)).
  { unfold resolve_secret_paths. apply in_map_iff. exists (name, def). auto. }
  destruct (C42_exact w dz _ Hnd') as [Hiff _]. rewrite H in Hiff.
  destruct (proj1 Hiff eq_refl name) as [b Hb].
  { apply in_map_iff. eexists. split; [|exact Hin']. reflexivity. }
  assert (Hp : exists enc, permitted w dz (sd_source (resolve_secret_path dir def)) enc /\
            (sd_kek (resolve_secret_path dir def) = None -> enc = false)).
  { inversion Hb as [n' d' x' Hi Hk' Hp' Hs'|n' d' kek' kb' ct' x' Hi Hk' Hv' Hp' Hs' Hg']; subst;
      rewrite (def_det _ Hnd' _ _ _ Hi Hin') in *.
    - exists false. auto.
    - exists true. split; auto. congruence. }
  destruct Hp as (enc & Hp & He). unfold resolve_secret_path in *.
  destruct (sd_source def) as [path|data|var] eqn:Es; cbn in Hp, He.
  - intros content Ho. inversion Hp as [? c ? Ho'|? c ? Ho' H1 H2| | |]; subst; [congruence|].
    split; auto.
  - intros Hk. rewrite Es in Hp. specialize (He Hk). subst enc.
    inversion Hp; subst. split; auto.
  - rewrite Es in Hp. inversion Hp; subst. split; auto.
Qed.

Lemma check_ok : forall b t u, check b t = Ok u <-> b = true.
Proof. intros [] t u; cbn; split; intros H; auto; try discriminate. destruct u. reflexivity. Qed.

Lemma check_is_ok : forall b t, is_ok (check b t) = true <-> b = true.
Proof. intros [] t; cbn; tauto. Qed.

Lemma bindr_is_ok : forall A B (r : res A) (f : A -> res B),
  is_ok (bindr r f) = true <-> exists a, r = Ok a /\ is_ok (f a) = true.
Proof.
  intros A B [a|t|] f; cbn [bindr].
  - split; [eauto|]. intros (a' & E & H). apply Ok_inj in E. now subst.
  - split; [discriminate|]. intros (a' & E & _). discriminate.
  - split; [discriminate|]. intros (a' & E & _). discriminate.
Qed.

Lemma is_ok_ex : forall A (r : res A), is_ok r = true <-> exists a, r = Ok a.
Proof. intros A [a|t|]; cbn; split; intros H; eauto; try discriminate; destruct H; discriminate. Qed.

(** What a valid remote section is. *)
Record remote_ok (dz : danger_zone) (secrets : resolved_map) (r : remote) : Prop := {
  ro_auth : match r_psk r with
            | None => opted dz dz_unencrypted_connection
            | Some p => exists s, lookup (psk_secret p) secrets = Some s /\ (16 <= List.length s)%nat
            end;
  ro_connect : r_connect_timeout_ms r <> 0;
  ro_operation : r_operation_attempt_timeout_ms r <> 0;
  ro_connections : r_connections r <> 0
}.

Lemma remote_valid : forall r dz secrets,
  is_ok (validate_remote r dz secrets) = true <-> remote_ok dz secrets r.
Proof.
  intros r dz secrets. unfold validate_remote, get_resolved_secret.
  rewrite bindr_is_ok. split.
  - intros (u & H1 & H). apply check_ok in H1.
    apply bindr_is_ok in H. destruct H as (u2 & H2 & H).
    apply bindr_is_ok in H. destruct H as (u3 & H3 & H). apply check_ok in H3.
    apply bindr_is_ok in H. destruct H as (u4 & H4 & H). apply check_ok in H4.
    apply check_is_ok in H.
    constructor; try lia.
    destruct (r_psk r) as [p|].
    + destruct (lookup (psk_secret p) secrets) as [s|]; cbn [bindr] in H2; [|discriminate].
      exists s. split; [reflexivity|]. apply check_ok in H2. lia.
    + cbn in H1. unfold opted. destruct (dz_enabled dz), (dz_unencrypted_connection dz); auto; discriminate.
  - intros [Ha Hc Ho Hn]. exists tt. split.
    + apply check_ok. destruct (r_psk r); [reflexivity|]. destruct Ha as [-> ->]. reflexivity.
    + apply bindr_is_ok. exists tt. split.
      * destruct (r_psk r) as [p|]; [|reflexivity]. destruct Ha as (s & -> & Hs). cbn [bindr].
        apply check_ok. lia.
      * apply bindr_is_ok. exists tt. split; [apply check_ok; lia|].
        apply bindr_is_ok. exists tt. split; [apply check_ok; lia|].
        apply check_is_ok. lia.
Qed.

(** ** C43 *)

(** A device configuration is accepted only with opt-in for everything
    insecure it contains. *)
Theorem C43_device : forall w dir c k, distinct (c_secrets c) ->
  load_config w dir c = Ok k ->
  (c_encryption c = None -> opted (c_dz c) dz_unencrypted_disk) /\
  secrets_allowed w dir (c_dz c) (c_secrets c) /\
  (forall r, c_source c = Some (SrcRemote r) -> remote_allowed (c_dz c) r).
Proof.
  intros w dir c k Hnd H. unfold load_config in H.
  destruct (load_common w dir (c_dz c) (c_secrets c)) as [secrets|?|] eqn:Ec; cbn [bindr] in H; try discriminate.
  destruct (c_device c) as [d|]; [|discriminate]. cbv zeta in H.
  destruct (validate_tuning _) as [u|?|]; cbn [bindr] in H; try discriminate.
  destruct (match option_map (resolve_source_paths dir) (c_source c) with
            | Some s => validate_source s (c_dz c) secrets | None => Ok tt end) as [u2|?|] eqn:Es;
    cbn [bindr] in H; try discriminate.
  destruct (match c_encryption c with
            | Some x => validate_encryption x secrets
            | None => check (dz_enabled (c_dz c) && dz_unencrypted_disk (c_dz c)) 51 end) as [u3|?|] eqn:Ee;
    cbn [bindr] in H; try discriminate.
  split; [|split].
  - intros He. rewrite He in Ee. apply check_ok in Ee. apply andb_true_iff in Ee. exact Ee.
  - apply (common_allowed w dir (c_dz c) (c_secrets c) secrets); auto.
  - intros r Hr Hp. rewrite Hr in Es. cbn in Es.
    assert (Hv : remote_ok (c_dz c) secrets r) by (apply remote_valid; now rewrite Es).
    destruct Hv as [Ha _ _ _]. now rewrite Hp in Ha.
Qed.

(** The archive tools and the stripe server load secrets under the same rules;
    the server needs a pre-shared key unless opted out. *)
Theorem C43_tools : forall w dir dz defs, distinct defs ->
  (forall t a s, load_archive_target w dir t dz defs = Ok (a, s) -> secrets_allowed w dir dz defs) /\
  (forall t a s, load_export_archive w dir t dz defs = Ok (a, s) -> secrets_allowed w dir dz defs) /\
  (forall t r s, load_server w dir t dz defs = Ok (r, s) ->
     secrets_allowed w dir dz defs /\ remote_allowed dz r).
Proof.
  intros w dir dz defs Hnd. split; [|split].
  - intros t a s H. unfold load_archive_target in H.
    destruct (load_common w dir dz defs) as [r|?|] eqn:E; cbn [bindr] in H; try discriminate.
    now apply (common_allowed w dir dz defs r).
  - intros t a s H. unfold load_export_archive in H.
    destruct (load_common w dir dz defs) as [r|?|] eqn:E; cbn [bindr] in H; try discriminate.
    now apply (common_allowed w dir dz defs r).
  - intros t r s H. unfold load_server in H.
    destruct (load_common w dir dz defs) as [sec|?|] eqn:E; cbn [bindr] in H; try discriminate.
    split; [now apply (common_allowed w dir dz defs sec)|].
    destruct t as [r0|]; [|discriminate].
    destruct (validate_remote r0 dz sec) as [u|?|] eqn:Ev; cbn [bindr] in H; try discriminate.
    injection H as <- <-. intros Hp.
    assert (Hv : remote_ok dz sec r0) by (apply remote_valid; now rewrite Ev).
    destruct Hv as [Ha _ _ _]. now rewrite Hp in Ha.
Qed.

(** What an accepted archive section needs, for the exactness theorem. *)
Definition kek_ok (secrets : resolved_map) (kek : option string) : Prop :=
  forall n, kek = Some n -> exists s, lookup n secrets = Some s /\ List.length s = 32%nat.
Definition given (secrets : resolved_map) (n : string) : Prop :=
  exists s, lookup n secrets = Some s /\ s <> [].
Section Prefix.
Local Open Scope string_scope.
(** No ".." between slashes, and not "." alone or in front. *)
Definition prefix_ok (p : string) : Prop :=
  ~ In ".." (pieces p) /\ p <> "." /\ forall r, p <> "./" ++ r.

Lemma prefix_valid : forall p, bad_prefix p = false <-> prefix_ok p.
Proof.
  intros p. unfold bad_prefix, prefix_ok. rewrite orb_false_iff.
  assert (A : existsb (String.eqb "..") (pieces p) = false <-> ~ In ".." (pieces p)).
  { destruct (existsb (String.eqb "..") (pieces p)) eqn:E.
    - split; [discriminate|]. intros N. exfalso. apply N. apply existsb_exists in E as (x & Hx & E).
      apply String.eqb_eq in E. now subst x.
    - split; [|reflexivity]. intros _ H. assert (existsb (String.eqb "..") (pieces p) = true); [|congruence].
      apply existsb_exists. exists "..". split; [exact H|reflexivity]. }
  rewrite A. assert (B : match pieces p with q :: _ => String.eqb q "." | [] => false end = false <-> p <> "." /\ forall r, p <> "./" ++ r); [|tauto].
  destruct p as [|a p]; [cbn; split; [split; discriminate|reflexivity]|].
  cbn [pieces]. destruct (Ascii.eqb a "/") eqn:Ea.
  { apply Ascii.eqb_eq in Ea. subst a. cbn. split; [split; discriminate|reflexivity]. }
  destruct p as [|b p].
  - cbn. destruct (Ascii.eqb a ".") eqn:Eb.
    + apply Ascii.eqb_eq in Eb. subst a. split; [discriminate|]. intros [N _]. congruence.
    + apply Ascii.eqb_neq in Eb. split; [|reflexivity]. intros _. split; [congruence|discriminate].
  - cbn [pieces]. destruct (Ascii.eqb b "/") eqn:Eb.
    + apply Ascii.eqb_eq in Eb. subst b. cbn [String.eqb]. destruct (Ascii.eqb a ".") eqn:Ed.
      * apply Ascii.eqb_eq in Ed. subst a. split; [discriminate|]. intros [_ N]. exfalso. apply (N p). reflexivity.
      * apply Ascii.eqb_neq in Ed. split; [|reflexivity]. intros _. split; [discriminate|]. intros r H. cbn in H. congruence.
    + apply Ascii.eqb_neq in Eb. split.
      * intros _. split; [discriminate|]. intros r H. cbn in H. congruence.
      * intros _. destruct (pieces p) as [|q l]; cbn [String.eqb]; destruct (Ascii.eqb a "."); reflexivity.
Qed.
End Prefix.

Record s3_ok (secrets : resolved_map) (c : s3) : Prop := {
  so_kek : kek_ok secrets (s3_kek c);
  so_id : given secrets (s3_access_key_id c);
  so_key : given secrets (s3_secret_access_key c);
  so_token : forall t, s3_session_token c = Some t -> given secrets t;
  so_prefix : forall p, s3_prefix c = Some p -> prefix_ok p;
  so_conns : s3_connections c <> 0;
  so_connect : s3_connect_timeout_ms c <> 0;
  so_op : s3_operation_attempt_timeout_ms c <> 0;
  so_attempts : s3_max_attempts c <> 0;
  so_retry : fst (s3_retry c) = true -> snd (s3_retry c) <> 0
}.
Definition archive_ok (secrets : resolved_map) (a : archive) : Prop :=
  match a with AFilesystem _ kek => kek_ok secrets kek | AS3 c => s3_ok secrets c end.

Lemma kek_valid : forall kek secrets,
  is_ok (validate_archive_kek kek secrets) = true <-> kek_ok secrets kek.
Proof.
  intros [n|] secrets; unfold validate_archive_kek, get_resolved_secret, kek_ok.
  - split.
    + intros H n' E. injection E as <-.
      destruct (lookup n secrets) as [s|]; cbn [bindr] in H; [|discriminate].
      exists s. split; auto. apply check_is_ok in H. lia.
    + intros H. destruct (H n eq_refl) as (s & -> & Hs). cbn [bindr]. apply check_is_ok. lia.
  - split; [discriminate|reflexivity].
Qed.

Lemma given_valid : forall n tag secrets,
  is_ok (let! k := get_resolved_secret n secrets in check (nonempty k) tag) = true <-> given secrets n.
Proof.
  intros n tag secrets. unfold get_resolved_secret, given.
  destruct (lookup n secrets) as [s|]; cbn [bindr].
  - rewrite check_is_ok. destruct s as [|b s]; cbn; split; intros H; try discriminate; auto.
    + destruct H as (s & E & Hn). injection E as <-. congruence.
    + exists (b :: s). split; [auto|discriminate].
  - split; [discriminate|]. intros (s & E & _). discriminate.
Qed.

Lemma archive_valid : forall a secrets,
  is_ok (validate_archive a secrets) = true <-> archive_ok secrets a.
Proof.
  intros [p kek|c] secrets; cbn [validate_archive archive_ok]; [apply kek_valid|].
  split.
  - intros H.
    apply bindr_is_ok in H. destruct H as (u1 & H1 & H).
    apply bindr_is_ok in H. destruct H as (k1 & G1 & H).
    apply bindr_is_ok in H. destruct H as (u2 & H2 & H).
    apply bindr_is_ok in H. destruct H as (k2 & G2 & H).
    apply bindr_is_ok in H. destruct H as (u3 & H3 & H).
    apply bindr_is_ok in H. destruct H as (u4 & H4 & H).
    apply bindr_is_ok in H. destruct H as (u5 & H5 & H). apply check_ok in H5.
    apply bindr_is_ok in H. destruct H as (u6 & H6 & H). apply check_ok in H6.
    apply bindr_is_ok in H. destruct H as (u7 & H7 & H). apply check_ok in H7.
    apply bindr_is_ok in H. destruct H as (u8 & H8 & H). apply check_ok in H8.
    apply bindr_is_ok in H. destruct H as (u9 & H9 & H). apply check_ok in H9.
    apply check_is_ok in H.
    constructor; try lia.
    + apply kek_valid. now rewrite H1.
    + apply (given_valid _ 26). rewrite G1. cbn [bindr]. now rewrite H2.
    + apply (given_valid _ 27). rewrite G2. cbn [bindr]. now rewrite H3.
    + intros t Ht. rewrite Ht in H4. apply (given_valid _ 28). now rewrite H4.
    + intros p Hp. rewrite Hp in H5. apply prefix_valid. now destruct (bad_prefix p).
    + intros Hr. rewrite Hr in H. cbn [andb] in H. destruct (snd (s3_retry c)); [discriminate|discriminate].
  - intros [K1 K2 K3 K4 K5 K6 K7 K8 K9 K10].
    apply bindr_is_ok.
    apply kek_valid, is_ok_ex in K1. destruct K1 as [u1 K1]. exists u1. split; [exact K1|].
    apply (given_valid _ 26) in K2. apply bindr_is_ok in K2. destruct K2 as (k1 & K2 & K2').
    apply bindr_is_ok. exists k1. split; [exact K2|].
    apply bindr_is_ok. apply is_ok_ex in K2'. destruct K2' as [v1 K2']. exists v1. split; [exact K2'|].
    apply (given_valid _ 27) in K3. apply bindr_is_ok in K3. destruct K3 as (k2 & K3 & K3').
    apply bindr_is_ok. exists k2. split; [exact K3|].
    apply bindr_is_ok. apply is_ok_ex in K3'. destruct K3' as [v2 K3']. exists v2. split; [exact K3'|].
    apply bindr_is_ok.
    assert (Ht : exists u, match s3_session_token c with
                | None => Ok tt
                | Some t => let! k := get_resolved_secret t secrets in check (nonempty k) 28 end = Ok u).
    { destruct (s3_session_token c) as [t|]; [|eauto]. apply is_ok_ex. apply given_valid. now apply K4. }
    destruct Ht as [v3 Ht]. exists v3. split; [exact Ht|].
    apply bindr_is_ok. exists tt. split.
    { apply check_ok. destruct (s3_prefix c) as [p|]; [|reflexivity]. now rewrite (proj2 (prefix_valid p) (K5 p eq_refl)). }
    apply bindr_is_ok. exists tt. split; [apply check_ok; lia|].
    apply bindr_is_ok. exists tt. split; [apply check_ok; lia|].
    apply bindr_is_ok. exists tt. split; [apply check_ok; lia|].
    apply bindr_is_ok. exists tt. split; [apply check_ok; lia|].
    apply check_is_ok. destruct (fst (s3_retry c)); [specialize (K10 eq_refl)|]; lia.
Qed.

(** Exactly which device configurations load: nothing insecure gets in without
    opt-in, and nothing else is turned away.  [secrets] are the resolved
    secrets of C42. *)
Theorem C43_exact : forall w dir c,
  is_ok (load_config w dir c) = true <->
  exists secrets, load_common w dir (c_dz c) (c_secrets c) = Ok secrets /\
    c_device c <> None /\
    (forall t, c_tuning c = Some t -> tuning_ok t) /\
    (forall r, c_source c = Some (SrcRemote r) -> remote_ok (c_dz c) secrets r) /\
    (forall a, c_source c = Some (SrcArchive a) -> archive_ok secrets a) /\
    match c_encryption c with
    | None => opted (c_dz c) dz_unencrypted_disk
    | Some x => exists key, lookup x secrets = Some key /\ List.length key = 64%nat
    end.
Proof.
  intros w dir c. unfold load_config. rewrite bindr_is_ok.
  assert (Hsrc : forall secrets,
    is_ok (match option_map (resolve_source_paths dir) (c_source c) with
           | Some s => validate_source s (c_dz c) secrets | None => Ok tt end) = true <->
    (forall r, c_source c = Some (SrcRemote r) -> remote_ok (c_dz c) secrets r) /\
    (forall a, c_source c = Some (SrcArchive a) -> archive_ok secrets a)).
  { intros secrets. destruct (c_source c) as [[p|a|r]|]; cbn [option_map resolve_source_paths validate_source].
    - split; [split; discriminate|reflexivity].
    - assert (E : validate_archive a secrets =
                  validate_source (match a with AFilesystem p kek => SrcArchive (AFilesystem (resolve_path dir p) kek)
                                   | _ => SrcArchive a end) (c_dz c) secrets) by now destruct a.
      assert (E2 : is_ok (match a with AFilesystem p kek => validate_archive (AFilesystem (resolve_path dir p) kek) secrets
                                   | _ => validate_archive a secrets end) = is_ok (validate_archive a secrets)) by now destruct a.
      destruct a as [p kek|s]; cbn [resolve_source_paths validate_source] in *.
      + change (validate_archive (AFilesystem (resolve_path dir p) kek) secrets)
          with (validate_archive (AFilesystem p kek) secrets).
        rewrite archive_valid. split; [intros H; split; [discriminate|]|].
        * intros a Ea. injection Ea as <-. exact H.
        * intros [_ H]. now apply H.
      + rewrite archive_valid. split; [intros H; split; [discriminate|]|].
        * intros a Ea. injection Ea as <-. exact H.
        * intros [_ H]. now apply H.
    - rewrite remote_valid. split; [intros H; split; [|discriminate]|].
      + intros r' Er. injection Er as <-. exact H.
      + intros [H _]. now apply H.
    - split; [split; discriminate|reflexivity]. }
  assert (Henc : forall secrets,
    is_ok (match c_encryption c with
           | Some x => validate_encryption x secrets
           | None => check (dz_enabled (c_dz c) && dz_unencrypted_disk (c_dz c)) 51 end) = true <->
    match c_encryption c with
    | None => opted (c_dz c) dz_unencrypted_disk
    | Some x => exists key, lookup x secrets = Some key /\ List.length key = 64%nat
    end).
  { intros secrets. destruct (c_encryption c) as [x|].
    - unfold validate_encryption. destruct (lookup x secrets) as [key|].
      + rewrite check_is_ok. split; [intros H; exists key; split; [auto|lia]|].
        intros (key' & E & H). injection E as <-. lia.
      + split; [discriminate|]. intros (key & E & _). discriminate.
    - rewrite check_is_ok, andb_true_iff. reflexivity. }
  split.
  - intros (secrets & Ec & H). exists secrets. split; [exact Ec|].
    destruct (c_device c) as [d|]; [|discriminate]. cbv zeta in H.
    split; [discriminate|].
    apply bindr_is_ok in H. destruct H as (u1 & H1 & H).
    apply bindr_is_ok in H. destruct H as (u2 & H2 & H).
    apply bindr_is_ok in H. destruct H as (u3 & H3 & H).
    split.
    { intros t Ht. rewrite Ht in H1. apply C44_accepted. now rewrite H1. }
    assert (K2 := proj1 (Hsrc secrets) (proj2 (is_ok_ex _ _) (ex_intro _ u2 H2))).
    destruct K2 as [K2 K2']. split; [exact K2|]. split; [exact K2'|].
    apply Henc. now rewrite H3.
  - intros (secrets & Ec & Hd & Ht & Hr & Ha & He). exists secrets. split; [exact Ec|].
    destruct (c_device c) as [d|]; [|congruence]. cbv zeta.
    apply bindr_is_ok.
    assert (Htn : is_ok (validate_tuning (match c_tuning c with Some t => t | None => default_tuning end)) = true).
    { destruct (c_tuning c) as [t|]; [apply C44_accepted; now apply Ht|reflexivity]. }
    apply is_ok_ex in Htn. destruct Htn as [u1 Htn]. exists u1. split; [exact Htn|].
    apply bindr_is_ok.
    assert (Hs : is_ok (match option_map (resolve_source_paths dir) (c_source c) with
           | Some s => validate_source s (c_dz c) secrets | None => Ok tt end) = true) by (apply Hsrc; auto).
    apply is_ok_ex in Hs. destruct Hs as [u2 Hs]. exists u2. split; [exact Hs|].
    apply bindr_is_ok. apply Henc in He. apply is_ok_ex in He. destruct He as [u3 He].
    exists u3. split; [exact He|reflexivity].
Qed.

(** ** While the danger zone is not enabled its flags make no difference *)

Section Disabled.
  Context (dz dz' : danger_zone) (H0 : dz_enabled dz = false) (H0' : dz_enabled dz' = false).

  Lemma disabled_source : forall w src enc, load_source w src enc dz = load_source w src enc dz'.
  Proof.
    intros w [p|d|v] enc; cbn; unfold load_file_source, load_inline_source, load_env_source;
      rewrite H0, H0'; reflexivity.
  Qed.
  Lemma disabled_maybe : forall w n d r, maybe_resolve_secret w n d r dz = maybe_resolve_secret w n d r dz'.
  Proof.
    intros w n d r. unfold maybe_resolve_secret. rewrite !disabled_source. reflexivity.
  Qed.
  Lemma disabled_pass : forall w rem r, pass w dz rem r = pass w dz' rem r.
  Proof.
    induction rem as [|[n d] rest IH]; intros r; cbn [pass]; [reflexivity|].
    rewrite disabled_maybe. destruct (maybe_resolve_secret w n d r dz') as [[b|]|?|]; cbn [bindr]; auto.
    now rewrite IH.
  Qed.
  Lemma disabled_loop : forall w passes count rem r, loop w dz passes count rem r = loop w dz' passes count rem r.
  Proof.
    induction passes as [|passes IH]; intros count rem r; cbn [loop]; [reflexivity|].
    destruct (_ <? _)%nat; [|reflexivity]. rewrite disabled_pass.
    destruct (pass w dz' rem r) as [[l r']|?|]; cbn [bindr]; auto.
    destruct (_ =? _)%nat; auto.
  Qed.
  Lemma disabled_common : forall w dir defs, load_common w dir dz defs = load_common w dir dz' defs.
  Proof.
    intros. unfold load_common, resolve_secrets. destruct (existsb _ _); [reflexivity|]. apply disabled_loop.
  Qed.
  Lemma disabled_remote : forall r s, validate_remote r dz s = validate_remote r dz' s.
  Proof. intros. unfold validate_remote. rewrite H0, H0'. reflexivity. Qed.
End Disabled.

Definition with_dz (c : sections) (dz : danger_zone) : sections :=
  {| c_device := c_device c; c_tuning := c_tuning c; c_encryption := c_encryption c;
     c_source := c_source c; c_dz := dz; c_secrets := c_secrets c |}.
Definition no_flags : danger_zone :=
  {| dz_enabled := false; dz_unencrypted_disk := false; dz_inline_secrets := false;
     dz_regular_file := false; dz_unencrypted_connection := false; dz_env_secrets := false |}.

Theorem C43_flags_need_enabled : forall w dir c, dz_enabled (c_dz c) = false ->
  match load_config w dir c, load_config w dir (with_dz c no_flags) with
  | Ok k, Ok k' => k_device k = k_device k' /\ k_tuning k = k_tuning k' /\
      k_encryption k = k_encryption k' /\ k_source k = k_source k' /\ k_secrets k = k_secrets k'
  | Ok _, _ | _, Ok _ => False
  | _, _ => True
  end.
Proof.
  intros w dir c H. unfold load_config. cbn [with_dz c_device c_tuning c_encryption c_source c_dz c_secrets].
  rewrite (disabled_common (c_dz c) no_flags H eq_refl w dir (c_secrets c)).
  destruct (load_common w dir no_flags (c_secrets c)) as [s|?|]; cbn [bindr]; auto.
  destruct (c_device c) as [d|]; auto. cbv zeta.
  destruct (validate_tuning _) as [u|?|]; cbn [bindr]; auto.
  assert (E : match option_map (resolve_source_paths dir) (c_source c) with
            | Some s0 => validate_source s0 (c_dz c) s | None => Ok tt end =
          match option_map (resolve_source_paths dir) (c_source c) with
            | Some s0 => validate_source s0 no_flags s | None => Ok tt end).
  { destruct (option_map _ (c_source c)) as [[p|a|r]|]; auto. cbn [validate_source].
    now apply disabled_remote. }
  rewrite E. destruct (option_map (resolve_source_paths dir) (c_source c)) as [s0|];
    [destruct (validate_source s0 no_flags s) as [u2|?|]; cbn [bindr]; auto|cbn [bindr]];
    rewrite H; cbn [andb no_flags dz_enabled];
    destruct (c_encryption c) as [x|]; cbn [check bindr]; auto;
    destruct (validate_encryption x s); cbn [bindr]; cbn; auto.
Qed.

(** The flags that have no effect are exactly the ones the warning names. *)
Theorem C43_warned : forall dz,
  (forall n, In n (ignored_flags dz) <-> dz_enabled dz = false /\
     exists flag, In (n, flag)
       [("allow_unencrypted_disk"%string, dz_unencrypted_disk); ("allow_inline_plaintext_secrets"%string, dz_inline_secrets);
        ("allow_secret_over_regular_file"%string, dz_regular_file);
        ("allow_unencrypted_connection"%string, dz_unencrypted_connection); ("allow_env_secrets"%string, dz_env_secrets)] /\
       flag dz = true).
Proof.
  intros [e a b c d f] n. unfold ignored_flags. cbn [dz_enabled dz_unencrypted_disk dz_inline_secrets dz_regular_file dz_unencrypted_connection dz_env_secrets].
  split.
  - intros H. destruct e; [destruct H|]. split; [reflexivity|].
    rewrite !in_app_iff in H.
    destruct H as [H|[H|[H|[H|H]]]]; match type of H with In _ (if ?x then _ else _) => destruct x end;
      cbn in H; try tauto; destruct H as [<-|[]]; eexists; (split; [cbn; eauto 10|reflexivity]).
  - intros [-> (flag & Hin & Hf)]. rewrite !in_app_iff.
    cbn [In] in Hin.
    destruct Hin as [E|[E|[E|[E|[E|[]]]]]]; injection E as <- <-; cbn in Hf; rewrite Hf; cbn; auto 10.
Qed.

(** ** C52 *)

Definition absolute (p : string) : Prop := starts_with_slash p = true.

Lemma join_absolute : forall dir p, absolute dir -> absolute (join dir p).
Proof.
  intros [|c dir] p H; [discriminate|]. unfold join.
  destruct (ends_with_slash (String c dir)); exact H.
Qed.
Lemma resolve_absolute : forall dir p, absolute dir -> absolute (resolve_path dir p).
Proof.
  intros dir p H. unfold resolve_path. destruct (starts_with_slash p) eqn:E; [exact E|].
  now apply join_absolute.
Qed.

(** If the configuration file is in an absolute directory, every path of the
    loaded configuration is absolute: it means the same from any working
    directory. *)
Theorem C52_paths : forall w dir c k, absolute dir -> load_config w dir c = Ok k ->
  absolute (d_data_path (k_device k)) /\
  (forall p, d_metadata_path (k_device k) = Some p -> absolute p) /\
  (forall p, d_vhost_socket (k_device k) = Some p -> absolute p) /\
  (forall p, d_rpc_socket (k_device k) = Some p -> absolute p) /\
  (forall p, k_source k = Some (SrcRaw p) -> absolute p) /\
  (forall p kek, k_source k = Some (SrcArchive (AFilesystem p kek)) -> absolute p).
Proof.
  intros w dir c k Hd H. unfold load_config in H.
  destruct (load_common w dir (c_dz c) (c_secrets c)) as [secrets|?|]; cbn [bindr] in H; try discriminate.
  destruct (c_device c) as [d|]; [|discriminate]. cbv zeta in H.
  destruct (validate_tuning _) as [u|?|]; cbn [bindr] in H; try discriminate.
  destruct (match option_map (resolve_source_paths dir) (c_source c) with
            | Some s => validate_source s (c_dz c) secrets | None => Ok tt end) as [u2|?|];
    cbn [bindr] in H; try discriminate.
  destruct (match c_encryption c with
            | Some x => validate_encryption x secrets
            | None => check (dz_enabled (c_dz c) && dz_unencrypted_disk (c_dz c)) 51 end) as [u3|?|];
    cbn [bindr] in H; try discriminate.
  apply Ok_inj in H. subst k. cbn [k_device k_source d_data_path d_metadata_path d_vhost_socket d_rpc_socket resolve_device_paths].
  assert (Ho : forall o p, option_map (resolve_path dir) o = Some p -> absolute p).
  { intros [q|] p E; [|discriminate]. injection E as <-. now apply resolve_absolute. }
  split; [now apply resolve_absolute|]. split; [apply Ho|]. split; [apply Ho|]. split; [apply Ho|].
  split.
  - intros p E. destruct (c_source c) as [[q|[q kek|s]|r]|]; try discriminate.
    injection E as <-. now apply resolve_absolute.
  - intros p kek E. destruct (c_source c) as [[q|[q kek'|s]|r]|]; try discriminate.
    injection E as <- <-. now apply resolve_absolute.
Qed.

(** An absolute path is kept; a relative one is appended to the directory. *)
Theorem C52_meaning : forall dir p, dir <> EmptyString ->
  (absolute p -> resolve_path dir p = p) /\
  (~ absolute p -> resolve_path dir p = (dir ++ p)%string /\ ends_with_slash dir = true \/
                   resolve_path dir p = (dir ++ "/" ++ p)%string /\ ends_with_slash dir = false).
Proof.
  intros dir p Hd. unfold resolve_path, absolute. split; intros H.
  - now rewrite H.
  - destruct (starts_with_slash p); [congruence|].
    destruct dir as [|c dir]; [congruence|]. unfold join.
    destruct (ends_with_slash (String c dir)) eqn:E; auto.
Qed.

(** The secret files and the export tool's archive follow the same rule ... *)
Theorem C52_export : forall w dir t dz defs a s, absolute dir ->
  load_export_archive w dir t dz defs = Ok (a, s) ->
  forall p kek, a = AFilesystem p kek -> absolute p.
Proof.
  intros w dir t dz defs a s Hd H p kek Ea. subst a. unfold load_export_archive in H.
  destruct (load_common w dir dz defs) as [secrets|?|]; cbn [bindr] in H; try discriminate.
  destruct t as [[q k|c]|]; [| |discriminate].
  - destruct (validate_archive (AFilesystem (resolve_path dir q) k) secrets); cbn [bindr] in H; try discriminate.
    injection H as <- <- <-. now apply resolve_absolute.
  - destruct (validate_archive (AS3 c) secrets); cbn [bindr] in H; discriminate.
Qed.
Theorem C52_secret_files : forall dir defs, absolute dir ->
  forall name def p, In (name, def) (resolve_secret_paths dir defs) -> sd_source def = SFile p -> absolute p.
Proof.
  intros dir defs Hd name def p Hin Hs. unfold resolve_secret_paths in Hin.
  apply in_map_iff in Hin. destruct Hin as ([n d] & E & _). cbn in E. injection E as <- <-.
  unfold resolve_secret_path in Hs. destruct (sd_source d) as [q|q|q] eqn:Ed; cbn in Hs; try congruence.
  injection Hs as <-. now apply resolve_absolute.
Qed.

(** ** Concrete cases *)
Local Open Scope string_scope.

Definition ex_key : list byte := repeat 5 64.
Definition cfg_world : world := {|
  w_open := fun p => if String.eqb p "/etc/ubi/key" then Some (true, Some ex_key)
                     else if String.eqb p "/dev/fd/3" then Some (false, Some ex_key) else None;
  w_getenv := fun v => if String.eqb v "PSK" then Some (repeat 1 16) else None;
  w_base64 := fun _ => None;
  w_gcm := fun _ _ _ => None |}.
Definition ex_device : device :=
  {| d_data_path := "disk.raw"; d_metadata_path := Some "/var/meta"; d_vhost_socket := None; d_rpc_socket := None |}.
Definition ex_remote (p : option psk) : remote :=
  {| r_psk := p; r_connect_timeout_ms := 5000; r_operation_attempt_timeout_ms := 20000; r_connections := 16 |}.
Definition ex_cfg (enc : option string) (src : option stripe_source) (dz : danger_zone)
    (defs : list (string * secret_def)) : sections :=
  {| c_device := Some ex_device; c_tuning := None; c_encryption := enc; c_source := src; c_dz := dz; c_secrets := defs |}.
Definition def_of (s : secret_source) : secret_def :=
  {| sd_source := s; sd_encoding := Plaintext; sd_kek := None |}.
Definition all_flags (on : bool) : danger_zone :=
  {| dz_enabled := on; dz_unencrypted_disk := true; dz_inline_secrets := true;
     dz_regular_file := true; dz_unencrypted_connection := true; dz_env_secrets := true |}.

(** The ... archive tool's target does not: a relative path stays relative to the
    working directory of the process, although the configuration file is in an
    absolute directory (C52 fails for it). *)
Theorem C52_refuted_archive_target : exists w dz defs a s,
  load_archive_target w "/etc/ubi" (Some (AFilesystem "backups" None)) dz defs = Ok (a, s) /\
  a = AFilesystem "backups" None /\ ~ absolute "backups" /\ resolve_path "/etc/ubi" "backups" = "/etc/ubi/backups".
Proof.
  exists cfg_world, no_flags, [], (AFilesystem "backups" None), [].
  split; [reflexivity|]. split; [reflexivity|]. split; [discriminate|reflexivity].
Qed.

(** Secure: accepted without any opt-in. *)
Example C43_nonvacuous_secure :
  is_ok (load_config cfg_world "/etc/ubi" (ex_cfg (Some "xts") (Some (SrcRaw "base.img")) no_flags
    [("xts", def_of (SFile "/dev/fd/3"))])) = true.
Proof. vm_compute. reflexivity. Qed.

(** Each insecure choice: rejected without opt-in, rejected with the flag
    alone, accepted with both. *)
Example C43_nonvacuous_insecure :
  forall c, In c [fun dz => ex_cfg None None dz [];
                  fun dz => ex_cfg (Some "xts") None dz [("xts", def_of (SFile "key"))];
                  fun dz => ex_cfg (Some "xts") None dz [("xts", def_of (SFile "/dev/fd/3")); ("p", def_of (SEnv "PSK"))];
                  fun dz => ex_cfg (Some "xts") None dz [("xts", def_of (SFile "/dev/fd/3")); ("p", def_of (SInline "x"))];
                  fun dz => ex_cfg (Some "xts") (Some (SrcRemote (ex_remote None))) dz
                              [("xts", def_of (SFile "/dev/fd/3"))]] ->
  is_err (load_config cfg_world "/etc/ubi" (c no_flags)) = true /\
  is_err (load_config cfg_world "/etc/ubi" (c (all_flags false))) = true /\
  is_ok (load_config cfg_world "/etc/ubi" (c (all_flags true))) = true.
Proof.
  intros c H. cbn in H.
  destruct H as [<-|[<-|[<-|[<-|[<-|[]]]]]]; vm_compute; repeat split; reflexivity.
Qed.

Example C43_tools_nonvacuous :
  is_ok (load_server cfg_world "/etc/ubi" (Some (ex_remote (Some {| psk_identity := "id"; psk_secret := "p" |})))
    no_flags [("p", def_of (SFile "/dev/fd/3"))]) = true /\
  is_ok (load_server cfg_world "/etc/ubi" (Some (ex_remote None)) no_flags []) = false /\
  is_ok (load_export_archive cfg_world "/etc/ubi" (Some (AFilesystem "a" None)) no_flags []) = true.
Proof. repeat split; vm_compute; reflexivity. Qed.

Example C52_nonvacuous :
  match load_config cfg_world "/etc/ubi" (ex_cfg (Some "xts") (Some (SrcRaw "base.img")) no_flags
    [("xts", def_of (SFile "/dev/fd/3"))]) with
  | Ok k => d_data_path (k_device k) = "/etc/ubi/disk.raw" /\ d_metadata_path (k_device k) = Some "/var/meta" /\
            k_source k = Some (SrcRaw "/etc/ubi/base.img")
  | _ => False
  end.
Proof. vm_compute. auto. Qed.

Print Assumptions C43_device.
Print Assumptions C43_tools.
Print Assumptions C43_exact.
Print Assumptions C43_flags_need_enabled.
Print Assumptions C43_warned.
Print Assumptions C52_paths.
Print Assumptions C52_meaning.
Print Assumptions C52_export.
Print Assumptions C52_secret_files.
Print Assumptions C52_refuted_archive_target.
