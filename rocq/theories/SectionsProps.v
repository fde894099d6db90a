(** C77: a configuration file is read as the reference says, strictly: every key that is
    written is a documented one and is taken at its value, every key that is not written has
    its documented default, and a file for which there is no such reading is refused. *)
From Coq Require Import String List NArith ZArith Bool.
From Verif Require Import Base IncludesModel IncludesSpec IncludesProofs IncludesProps SecretsModel ConfigModel
  SectionsModel SectionsSpec SectionsProofs.
Import ListNotations.
Local Open Scope string_scope.

(** What stands at a path is what IncludesSpec.v says stands there. *)
Theorem C77_stands : forall v p l, stands v p (VLeaf l) <-> says v p (NLeaf l).
Proof.
  intros v p l. split.
  - intros H. remember (VLeaf l) as u eqn:E. induction H as [v|t k v p u Hin _ IH]; subst.
    + constructor.
    + econstructor; eauto.
  - intros H. remember (NLeaf l) as n eqn:E. induction H as [x|t|t k v p n Hin _ IH]; subst.
    + injection E as ->. constructor.
    + discriminate.
    + econstructor; eauto.
Qed.

Lemma merged_wf fs root m : fs_wf fs -> wf root -> resolve_includes fs root = Ok m -> wf m.
Proof. intros Hf Hw H. destruct (C41_merged fs root m Hf Hw H) as (l & files & _ & _ & Hm & _). exact Hm. Qed.

Lemma load_merged_split fs root ks m : load_merged fs root ks = Ok m <->
  resolve_includes fs root = Ok m /\ validate_top_level_keys m ks = Ok tt.
Proof.
  unfold load_merged. split.
  - intros H. apply bindr_ok in H as (m' & H1 & H). apply bindr_ok in H as ([] & H2 & H).
    injection H as ->. auto.
  - intros [H1 H2]. rewrite H1. cbn [bindr]. rewrite H2. reflexivity.
Qed.

(** A device configuration is accepted, with the sections [c], exactly when the file with
    its includes means [c]. *)
Theorem C77_device_file : forall atom_of fs root c, fs_wf fs -> wf root ->
  (device_file atom_of fs root = Ok c <->
   exists m, resolve_includes fs root = Ok m /\ file_means atom_of m c).
Proof.
  intros atom_of fs root c Hf Hw. unfold device_file. rewrite bindr_ok. split.
  - intros (m & Hm & H). apply load_merged_split in Hm as [Hm Hk]. exists m. split; [exact Hm|].
    apply (sections_ok atom_of m c (merged_wf _ _ _ Hf Hw Hm)). split; [exact H|exact Hk].
  - intros (m & Hm & H). apply (sections_ok atom_of m c (merged_wf _ _ _ Hf Hw Hm)) in H as [H Hk].
    exists m. split; [apply load_merged_split; auto|exact H].
Qed.

(** The same for the other three programs' files. *)
Lemma other_file_ok {A} atom_of fs main (p : value -> res A) (M : value -> A -> Prop) root c :
  (forall v x, wf v -> (p v = Ok x <-> M v x)) -> fs_wf fs -> wf root ->
  (other_file atom_of fs main p root = Ok c <->
   exists m, resolve_includes fs root = Ok m /\ other_means atom_of main M m c).
Proof.
  intros Hp Hf Hw. unfold other_file. rewrite bindr_ok. split.
  - intros (m & Hm & H). apply load_merged_split in Hm as [Hm Hk]. exists m. split; [exact Hm|].
    apply (other_ok atom_of main p M m c Hp (merged_wf _ _ _ Hf Hw Hm)). split; [exact H|exact Hk].
  - intros (m & Hm & H). apply (other_ok atom_of main p M m c Hp (merged_wf _ _ _ Hf Hw Hm)) in H as [H Hk].
    exists m. split; [apply load_merged_split; auto|exact H].
Qed.

Theorem C77_archive_file : forall atom_of fs main root c, fs_wf fs -> wf root ->
  (other_file atom_of fs main (as_table (t_archive atom_of)) root = Ok c <->
   exists m, resolve_includes fs root = Ok m /\ other_means atom_of main (archive_means atom_of []) m c).
Proof. intros. apply other_file_ok; auto using as_archive_ok. Qed.

Theorem C77_server_file : forall atom_of fs root c, fs_wf fs -> wf root ->
  (other_file atom_of fs "server" (as_table (t_remote atom_of)) root = Ok c <->
   exists m, resolve_includes fs root = Ok m /\ other_means atom_of "server" (remote_means atom_of []) m c).
Proof. intros. apply other_file_ok; auto using as_remote_ok. Qed.

(** A file has at most one meaning. *)
Theorem C77_one_meaning : forall atom_of m c c', wf m ->
  file_means atom_of m c -> file_means atom_of m c' -> c = c'.
Proof.
  intros atom_of m c c' Hw H H'. apply (sections_ok _ _ _ Hw) in H as [H _].
  apply (sections_ok _ _ _ Hw) in H' as [H' _]. congruence.
Qed.

(** Every key a device configuration may hold. *)
Definition plain_keys : list (list string) :=
  [["device"; "data_path"]; ["device"; "metadata_path"]; ["device"; "vhost_socket"]; ["device"; "rpc_socket"];
   ["device"; "device_id"]; ["device"; "track_written"];
   ["tuning"; "num_queues"]; ["tuning"; "queue_size"]; ["tuning"; "seg_size_max"]; ["tuning"; "seg_count_max"];
   ["tuning"; "poll_timeout_us"]; ["tuning"; "cpus"]; ["tuning"; "io_engine"]; ["tuning"; "write_through"];
   ["encryption"; "xts_key"; "ref"];
   ["danger_zone"; "enabled"]; ["danger_zone"; "allow_unencrypted_disk"];
   ["danger_zone"; "allow_inline_plaintext_secrets"]; ["danger_zone"; "allow_secret_over_regular_file"];
   ["danger_zone"; "allow_unencrypted_connection"]; ["danger_zone"; "allow_env_secrets"];
   ["stripe_source"; "type"]; ["stripe_source"; "image_path"]; ["stripe_source"; "autofetch"];
   ["stripe_source"; "copy_on_read"]; ["stripe_source"; "storage"]; ["stripe_source"; "path"];
   ["stripe_source"; "archive_kek"; "ref"]; ["stripe_source"; "bucket"]; ["stripe_source"; "prefix"];
   ["stripe_source"; "region"]; ["stripe_source"; "access_key_id"; "ref"];
   ["stripe_source"; "secret_access_key"; "ref"]; ["stripe_source"; "session_token"; "ref"];
   ["stripe_source"; "endpoint"]; ["stripe_source"; "connections"]; ["stripe_source"; "connect_timeout_ms"];
   ["stripe_source"; "operation_attempt_timeout_ms"]; ["stripe_source"; "max_attempts"];
   ["stripe_source"; "rate_limited_retry"; "enabled"]; ["stripe_source"; "rate_limited_retry"; "min_delay_ms"];
   ["stripe_source"; "rate_limited_retry"; "jitter_ms"]; ["stripe_source"; "address"];
   ["stripe_source"; "psk"; "identity"]; ["stripe_source"; "psk"; "secret"; "ref"]].
Definition secret_keys : list (list string) :=
  [["source"; "file"]; ["source"; "inline"]; ["source"; "env"]; ["encoding"]; ["encrypted_by"; "ref"]].
Definition documented (p : list string) : Prop :=
  In p plain_keys \/ exists name q, p = "secrets" :: name :: q /\ In q secret_keys.

(** Nothing undocumented is ever accepted: a misspelt key anywhere refuses the file. *)
Theorem C77_no_unknown_key : forall atom_of fs root c m p l, fs_wf fs -> wf root ->
  device_file atom_of fs root = Ok c -> resolve_includes fs root = Ok m ->
  says m p (NLeaf l) -> documented p.
Proof.
  intros atom_of fs root c m p l Hf Hw H Hm Hs.
  apply C77_device_file in H as (m' & Hm' & H); [|assumption..]. rewrite Hm in Hm'. injection Hm' as <-.
  pose proof (merged_wf _ _ _ Hf Hw Hm) as Hwm. apply C77_stands in Hs.
  destruct H as (H1 & H2 & H3 & H4 & H5 & H6 & (t & -> & Hk)).
  destruct p as [|k p]; [inversion Hs|]. apply stands_cons in Hs as (v & Hg & Hs); [|exact Hwm].
  assert (Hin : In k ["device"; "tuning"; "encryption"; "danger_zone"; "stripe_source"; "secrets"]).
  { apply (Hk k v). apply SectionsProofs.get_In; [now inversion Hwm|exact Hg]. }
  assert (Huse : forall v', stands (VTable t) [k] v' -> v' = v).
  { intros v' Hv. apply stands_one in Hv; [congruence|exact Hwm]. }
  assert (Huse' : forall v', or_empty (VTable t) k v' -> v' = v).
  { intros v' [Hv|[Hv _]]; [now apply Huse|]. apply absent_one in Hv; [congruence|exact Hwm]. }
  assert (Hab : ~ absent (VTable t) [k]).
  { rewrite absent_one by exact Hwm. congruence. }
  assert (Lift : forall ps, only v ps -> forallb (fun q => existsb (fun d => if list_eq_dec string_dec d (k :: q)
    then true else false) plain_keys) ps = true -> In (k :: p) plain_keys).
  { intros ps Ho Hps. apply (proj1 Ho) in Hs. rewrite forallb_forall in Hps. specialize (Hps _ Hs).
    apply existsb_exists in Hps as (d & Hd & E). destruct (list_eq_dec string_dec d (k :: p)); [now subst|discriminate]. }
  cbn [In] in Hin.
  repeat match type of Hin with _ \/ _ => destruct Hin as [Hin|Hin] end; try contradiction; subst k.
  - left. destruct H1 as (v' & Hv & H1). rewrite (Huse _ Hv) in H1.
    unfold device_means in H1. decompose [and] H1. eapply Lift; [eassumption|reflexivity].
  - left. destruct H2 as (v' & Hv & H2). rewrite (Huse' _ Hv) in H2.
    unfold tuning_means in H2. decompose [and] H2. eapply Lift; [eassumption|reflexivity].
  - left. destruct (f_encryption c) as [key|]; [|now elim Hab].
    destruct H3 as (v' & Hv & H3). rewrite (Huse _ Hv) in H3.
    destruct H3 as [_ H3]. eapply Lift; [exact H3|reflexivity].
  - left. destruct H4 as (v' & Hv & H4). rewrite (Huse' _ Hv) in H4.
    unfold danger_means in H4. decompose [and] H4. eapply Lift; [eassumption|reflexivity].
  - left. destruct (f_source c) as [s|]; [|now elim Hab].
    destruct H5 as (v' & Hv & H5). rewrite (Huse _ Hv) in H5.
    destruct s as [a b e|[f|s]|r]; unfold source_means, archive_means, remote_means in H5; decompose [and] H5;
      eapply Lift; try eassumption; reflexivity.
  - right. destruct H6 as (v' & Hv & H6). rewrite (Huse' _ Hv) in H6. destruct H6 as (st & -> & H6).
    destruct p as [|name q]; [inversion Hs|]. exists name, q. split; [reflexivity|].
    pose proof (wf_get _ _ _ Hwm Hg) as Hws.
    apply stands_cons in Hs as (u & Hu & Hs); [|exact Hws].
    apply SectionsProofs.get_In in Hu; [|now inversion Hws].
    assert (Hd : exists d, secret_means atom_of u d).
    { clear - H6 Hu. induction H6 as [|[k1 u1] [n d] st ds [_ Hd] _ IH]; [destruct Hu|].
      destruct Hu as [[= -> ->]|Hu]; [exists d; exact Hd|exact (IH Hu)]. }
    destruct Hd as (d & Hd). unfold secret_means in Hd. decompose [and] Hd.
    match goal with H : only u _ |- _ => apply (proj1 H) in Hs end.
    destruct (sd_source d); cbn [source_word In] in Hs; cbn [secret_keys In]; tauto.
Qed.

(** No safety check is off unless the file says so, word for word. *)
Definition says_true (atom_of : leaf -> atom) (m : value) (k : string) : Prop :=
  exists l, says m ["danger_zone"; k] (NLeaf l) /\ atom_of l = ABool true.

Lemma written_true atom_of m v k : wf m ->
  or_empty m "danger_zone" v -> defaulted atom_of v [k] is_bool false true -> says_true atom_of m k.
Proof.
  intros Hw He [(l & Hs & E)|[_ E]]; [|discriminate]. unfold is_bool in E.
  destruct He as [Hv|[_ ->]]; [|apply stands_one in Hs; [discriminate|repeat constructor]].
  exists l. split; [|exact E]. apply C77_stands. destruct m as [?|t]; [inversion Hv|].
  apply stands_cons; [exact Hw|]. exists v. split; [now apply stands_one|exact Hs].
Qed.

Theorem C77_danger_is_written : forall atom_of fs root c m, fs_wf fs -> wf root ->
  device_file atom_of fs root = Ok c -> resolve_includes fs root = Ok m ->
  (dz_enabled (f_dz c) = true -> says_true atom_of m "enabled") /\
  (dz_unencrypted_disk (f_dz c) = true -> says_true atom_of m "allow_unencrypted_disk") /\
  (dz_inline_secrets (f_dz c) = true -> says_true atom_of m "allow_inline_plaintext_secrets") /\
  (dz_regular_file (f_dz c) = true -> says_true atom_of m "allow_secret_over_regular_file") /\
  (dz_unencrypted_connection (f_dz c) = true -> says_true atom_of m "allow_unencrypted_connection") /\
  (dz_env_secrets (f_dz c) = true -> says_true atom_of m "allow_env_secrets").
Proof.
  intros atom_of fs root c m Hf Hw H Hm.
  apply C77_device_file in H as (m' & Hm' & H); [|assumption..]. rewrite Hm in Hm'. injection Hm' as <-.
  pose proof (merged_wf _ _ _ Hf Hw Hm) as Hwm.
  destruct H as (_ & _ & _ & (v & Hv & H1 & H2 & H3 & H4 & H5 & H6 & _) & _).
  repeat split; intros E; [rewrite E in H1|rewrite E in H2|rewrite E in H3|rewrite E in H4|rewrite E in H5
    |rewrite E in H6]; eapply written_true; eassumption.
Qed.

(** A disk without encryption: only by leaving the section out and saying so twice. *)
Theorem C77_plain_disk_is_written : forall atom_of fs w dir root c k m, fs_wf fs -> wf root ->
  load_device_config atom_of fs w dir root = Ok (c, k) -> resolve_includes fs root = Ok m ->
  f_encryption c = None ->
  absent m ["encryption"] /\ says_true atom_of m "enabled" /\ says_true atom_of m "allow_unencrypted_disk".
Proof.
  intros atom_of fs w dir root c k m Hf Hw H Hm He. unfold load_device_config in H.
  apply bindr_ok in H as (c' & Hc & H). apply bindr_ok in H as (k' & Hk & H). injection H as -> ->.
  destruct (C77_danger_is_written _ _ _ _ _ Hf Hw Hc Hm) as (D1 & D2 & _).
  pose proof Hc as Hc'. apply C77_device_file in Hc' as (m' & Hm' & Hc'); [|assumption..].
  rewrite Hm in Hm'. injection Hm' as <-. destruct Hc' as (_ & _ & Ha & _). rewrite He in Ha.
  split; [exact Ha|]. unfold load_config, v_sections in Hk. cbn [c_dz c_secrets c_device c_tuning c_source c_encryption] in Hk.
  apply bindr_ok in Hk as (sec & _ & Hk). apply bindr_ok in Hk as ([] & _ & Hk).
  apply bindr_ok in Hk as ([] & _ & Hk). apply bindr_ok in Hk as ([] & Hk & _). rewrite He in Hk.
  unfold check in Hk. destruct (dz_enabled (f_dz c) && dz_unencrypted_disk (f_dz c))%bool eqn:E; [|discriminate].
  apply andb_prop in E as [E1 E2]. auto.
Qed.

(** Reading never panics. *)
Lemma bindr_np {A B} (e : res A) (f : A -> res B) :
  is_panic e = false -> (forall x, is_panic (f x) = false) -> is_panic (bindr e f) = false.
Proof. destruct e; cbn; auto. Qed.
Lemma req_np {A} k (p : value -> res A) t : (forall v, is_panic (p v) = false) -> is_panic (req k p t) = false.
Proof. intros H. unfold req. destruct (get k t); [apply H|reflexivity]. Qed.
Lemma opt_np {A} k (p : value -> res A) t : (forall v, is_panic (p v) = false) -> is_panic (opt k p t) = false.
Proof. intros H. unfold opt. destruct (get k t) as [v|]; [|reflexivity]. now apply bindr_np. Qed.
Lemma dft_np {A} k (p : value -> res A) d t : (forall v, is_panic (p v) = false) -> is_panic (dft k p d t) = false.
Proof. intros H. unfold dft. destruct (get k t); [apply H|reflexivity]. Qed.
Lemma known_np ks t : is_panic (known ks t) = false.
Proof. unfold known. now destruct (forallb _ t). Qed.
Lemma table_np {A} (p : table -> res A) v : (forall t, is_panic (p t) = false) -> is_panic (as_table p v) = false.
Proof. intros H. destruct v; [reflexivity|apply H]. Qed.
Lemma str_np a v : is_panic (p_str a v) = false.
Proof. unfold p_str. destruct v as [l|]; [now destruct (a l)|reflexivity]. Qed.
Lemma bool_np a v : is_panic (p_bool a v) = false.
Proof. unfold p_bool. destruct v as [l|]; [now destruct (a l)|reflexivity]. Qed.
Lemma to_uint_np b z : is_panic (to_uint b z) = false.
Proof. unfold to_uint. now destruct (_ && _)%bool. Qed.
Lemma uint_np a b v : is_panic (p_uint a b v) = false.
Proof. unfold p_uint. destruct v as [l|]; [|reflexivity]. destruct (a l); auto using to_uint_np. Qed.
Lemma uints_np a v : is_panic (p_uints a v) = false.
Proof.
  unfold p_uints. destruct v as [l|]; [|reflexivity]. destruct (a l) as [| | |zs|]; try reflexivity.
  induction zs as [|z zs IH]; [reflexivity|]. cbn [to_uints]. apply bindr_np; [apply to_uint_np|].
  intros n. apply bindr_np; [exact IH|reflexivity].
Qed.
Lemma variant_np v : is_panic (p_variant v) = false.
Proof. unfold p_variant. now destruct v as [|[|[? ?] [|]]]. Qed.
Ltac nop :=
  repeat first
    [ reflexivity
    | apply str_np | apply bool_np | apply uint_np | apply uints_np | apply known_np | apply variant_np
    | apply bindr_np; [|intros] | apply req_np; intros | apply opt_np; intros | apply dft_np; intros
    | apply table_np; intros
    | match goal with
      | |- is_panic (if ?b then _ else _) = false => destruct b
      | |- is_panic (let '(_, _) := ?p in _) = false => destruct p
      end ].
Lemma ref_np a v : is_panic (p_ref a v) = false.
Proof. unfold p_ref. nop. Qed.
Lemma source_np a v : is_panic (p_secret_source a v) = false.
Proof. unfold p_secret_source. nop. Qed.
Lemma engine_np a v : is_panic (p_engine a v) = false.
Proof. unfold p_engine. nop. Qed.
Lemma encoding_np a v : is_panic (p_encoding a v) = false.
Proof. unfold p_encoding. nop. Qed.
Ltac nops := repeat first [ progress nop | apply ref_np | apply source_np | apply engine_np | apply encoding_np ].
Lemma secrets_np a v : is_panic (p_secrets a v) = false.
Proof.
  unfold p_secrets. apply table_np. intros t. induction t as [|[k u] t IH]; [reflexivity|]. cbn [p_defs].
  apply bindr_np; [unfold p_secret_def; nops|]. intros d. apply bindr_np; [exact IH|reflexivity].
Qed.
Lemma archive_np a t : is_panic (t_archive a t) = false.
Proof. unfold t_archive, p_retry. nops. Qed.
Lemma remote_np a t : is_panic (t_remote a t) = false.
Proof. unfold t_remote, p_psk. nops. Qed.

Ltac nopf :=
  repeat first
    [ apply secrets_np | apply archive_np | apply remote_np | apply ref_np | apply source_np
    | apply engine_np | apply encoding_np
    | reflexivity
    | apply str_np | apply bool_np | apply uint_np | apply uints_np | apply known_np | apply variant_np
    | apply bindr_np; [|intros] | apply req_np; intros | apply opt_np; intros | apply dft_np; intros
    | apply table_np; intros
    | match goal with |- is_panic (if ?b then _ else _) = false => destruct b end ].

Lemma load_merged_np fs root ks : fs_wf fs -> wf root -> is_panic (load_merged fs root ks) = false.
Proof.
  intros Hf Hw. unfold load_merged. apply bindr_np; [exact (proj2 (C41_exact fs root Hf Hw))|].
  intros m. apply bindr_np; [|reflexivity]. unfold validate_top_level_keys. destruct m; [reflexivity|].
  now destruct (forallb _ _).
Qed.

Theorem C77_no_panic : forall atom_of fs root, fs_wf fs -> wf root ->
  is_panic (device_file atom_of fs root) = false /\
  (forall main, is_panic (other_file atom_of fs main (as_table (t_archive atom_of)) root) = false) /\
  is_panic (other_file atom_of fs "server" (as_table (t_remote atom_of)) root) = false.
Proof.
  intros a fs root Hf Hw. split; [|split; [intros main|]].
  - unfold device_file. apply bindr_np; [now apply load_merged_np|]. intros m.
    unfold p_danger_zone, p_device, p_tuning, p_encryption, p_source.
    nopf.
  - unfold other_file. apply bindr_np; [now apply load_merged_np|]. intros m.
    unfold p_danger_zone. nopf.
  - unfold other_file. apply bindr_np; [now apply load_merged_np|]. intros m.
    unfold p_danger_zone. nopf.
Qed.

(** *** A case *)
Definition ex_atoms (l : leaf) : atom :=
  match l with
  | LOther 0 => ABool false | LOther 1 => ABool true
  | LOther 2 => AStr "/dev/sda" | LOther 3 => AInt 4 | LOther 4 => AInt 128
  | LOther 5 => AInts [0; 1; 2; 3]%Z | LOther 6 => AStr "sync" | LOther 7 => AStr "xts-key"
  | LOther 8 => AStr "archive" | LOther 9 => AStr "s3" | LOther 10 => AStr "stripes"
  | LOther 11 => AStr "AWS_ID" | LOther 12 => AStr "base64" | LOther 13 => AInt (-1)
  | LOther 14 => AInt 4294967296
  | _ => AOther
  end.
Local Notation lf n := (VLeaf (LOther n)).
Definition ex_ref : value := VTable [("ref", lf 7)].
Definition ex_s3 (more : table) : value := VTable
  ([("secret_access_key", ex_ref); ("type", lf 8); ("bucket", lf 10); ("access_key_id", ex_ref);
    ("storage", lf 9); ("rate_limited_retry", VTable [("enabled", lf 1); ("min_delay_ms", lf 4)])] ++ more).
Definition ex_file (dev tun src : table) : value := VTable
  [("include", VLeaf (LStrings ["secrets.toml"]));
   ("device", VTable (("data_path", lf 2) :: dev));
   ("encryption", VTable [("xts_key", ex_ref)]);
   ("tuning", VTable ([("num_queues", lf 3); ("cpus", lf 5); ("io_engine", lf 6)] ++ tun));
   ("stripe_source", ex_s3 src)].
Definition ex_files (path : string) : file :=
  if String.eqb path "secrets.toml" then FTable
    [("secrets", VTable [("xts-key", VTable [("source", VTable [("env", lf 11)]); ("encoding", lf 12)])])]
  else FMissing.

Example C77_nonvacuous :
  device_file ex_atoms ex_files (ex_file [] [] []) = Ok (mk_file_sections
    (mk_device_section "/dev/sda" None None None "ubiblk" false)
    (mk_tuning_section 4 64 65536 4 1000 (Some [0; 1; 2; 3]%N) Sync false)
    (Some "xts-key") no_danger
    (Some (ArchiveSection (S3Section (mk_s3_section "stripes" None None "xts-key" "xts-key" None None
       16 5000 20000 3 (mk_retry_section true 128 0) None false))))
    [("xts-key", {| sd_source := SEnv "AWS_ID"; sd_encoding := Base64; sd_kek := None |})]).
Proof. reflexivity. Qed.

(** Misspelt, of the wrong type, out of range, or belonging elsewhere: refused. *)
Example C77_refused_nonvacuous :
  is_err (device_file ex_atoms ex_files (ex_file [("track_writen", lf 1)] [] [])) = true /\
  is_err (device_file ex_atoms ex_files (ex_file [("track_written", lf 3)] [] [])) = true /\
  is_err (device_file ex_atoms ex_files (ex_file [] [("queue_size", lf 13)] [])) = true /\
  is_err (device_file ex_atoms ex_files (ex_file [] [("seg_size_max", lf 14)] [])) = true /\
  is_err (device_file ex_atoms ex_files (ex_file [] [("io_engin", lf 6)] [])) = true /\
  is_err (device_file ex_atoms ex_files (ex_file [] [] [("copy_on_read", lf 1)])) = true /\
  is_err (device_file ex_atoms ex_files (ex_file [] [] [("archive_kek", lf 7)])) = true.
Proof. repeat split. Qed.

Definition ex_plain (flags : table) : value := VTable
  [("device", VTable [("data_path", lf 2)]); ("danger_zone", VTable flags)].
Example C77_plain_nonvacuous : forall w,
  is_ok (load_device_config ex_atoms ex_files w "/etc"
    (ex_plain [("enabled", lf 1); ("allow_unencrypted_disk", lf 1)])) = true /\
  is_ok (load_device_config ex_atoms ex_files w "/etc" (ex_plain [("allow_unencrypted_disk", lf 1)])) = false.
Proof. intros w. split; reflexivity. Qed.

(** The reference lists archive_kek.ref of an S3 source as required; a file without it is
    accepted, as [C77_nonvacuous] shows, and its archive is then read without a key. *)
Theorem C77_refuted_kek_required : exists c s, fs_wf ex_files /\ wf (ex_file [] [] []) /\
  device_file ex_atoms ex_files (ex_file [] [] []) = Ok c /\
  f_source c = Some (ArchiveSection (S3Section s)) /\ ss_kek s = None.
Proof.
  eexists. eexists. split; [|split; [|split; [reflexivity|split; reflexivity]]].
  - intros path t. unfold ex_files. destruct (String.eqb path "secrets.toml"); [|discriminate].
    intros [= <-]. repeat (constructor; cbn; try (intuition discriminate)).
  - repeat (constructor; cbn; try (intuition discriminate)).
Qed.

Print Assumptions C77_stands.
Print Assumptions C77_device_file.
Print Assumptions C77_archive_file.
Print Assumptions C77_server_file.
Print Assumptions C77_one_meaning.
Print Assumptions C77_no_unknown_key.
Print Assumptions C77_danger_is_written.
Print Assumptions C77_plain_disk_is_written.
Print Assumptions C77_no_panic.
Print Assumptions C77_refuted_kek_required.
