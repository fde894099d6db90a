(** Configuration of a legacy volume (src/stripe_server/legacy.rs:152-346), behind the YAML
    parser: the decoded options and key-encryption key are given as records. *)
From Coq Require Import String Ascii List Arith NArith Bool.
From Verif Require Import Base KeyModel SecretsModel ConfigModel WireModel.
Import ListNotations.
Local Open Scope N_scope.

(** legacy.rs:152-168 [LegacyOptions]; keys it does not know are ignored. *)
Record legacy_options := mk_legacy_options {
  lo_path : string;
  lo_image_path : option string;
  lo_metadata_path : option string;
  lo_track_written : bool;
  lo_encryption_key : option (list byte * list byte)
}.

(** legacy.rs:170-193 [LegacyKek], [LegacyCipherMethod]. *)
Inductive legacy_method := LNone | LAes256Gcm.
Record legacy_kek := mk_legacy_kek {
  lk_method : legacy_method;
  lk_key : option (list byte);
  lk_iv : option (list byte);
  lk_auth : option (list byte)
}.
(** [LegacyKek::default()]. *)
Definition default_kek : legacy_kek := mk_legacy_kek LNone None None None.

Section Legacy.
(** The AES-256-GCM primitive, as in KeyModel.v. *)
Variable open_ : list byte -> list byte -> list byte -> list byte -> option (list byte).

(** legacy.rs:332-338 [into_key]. *)
Definition into_key (b : list byte) : res (list byte) :=
  if Nat.eqb (List.length b) 32 then Ok b else Err 60.

(** legacy.rs:316-330 [decrypt_key]. *)
Definition decrypt_key (key nonce aad wrapped : list byte) : res (list byte) :=
  match open_ key nonce aad wrapped with
  | Some p => into_key p
  | None => Err 61
  end.

(** legacy.rs:340-346 [required]. *)
Definition required (v : option (list byte)) : res (list byte) :=
  match v with Some b => Ok b | None => Err 62 end.

(** legacy.rs:275-314 [unwrap_xts_key]. *)
Definition unwrap_xts_key (wrapped : list byte * list byte) (kek : legacy_kek) : res (list byte) :=
  let! (k1, k2) :=
    match lk_method kek with
    | LNone =>
        let! k1 := into_key (fst wrapped) in
        let! k2 := into_key (snd wrapped) in Ok (k1, k2)
    | LAes256Gcm =>
        let! key := required (lk_key kek) in
        let! iv := required (lk_iv kek) in
        let aad := match lk_auth kek with Some a => a | None => [] end in
        let! _ := new_cipher key in
        if negb (Nat.eqb (List.length iv) 12) then Err 63
        else
          let! k1 := decrypt_key key iv aad (fst wrapped) in
          let! k2 := decrypt_key key iv aad (snd wrapped) in Ok (k1, k2)
    end in
  Ok (k1 ++ k2).

(** A Rust string of these bytes (they are ASCII where this is used). *)
Fixpoint string_of (l : list byte) : string :=
  match l with [] => EmptyString | b :: r => String (ascii_of_N b) (string_of r) end.

(** legacy.rs:47 [LEGACY_XTS_KEY_ID]. *)
Definition LEGACY_XTS_KEY_ID : string := "__legacy_xts_key".

(** legacy.rs:205-215. *)
Definition legacy_danger_zone : danger_zone :=
  {| dz_enabled := true; dz_unencrypted_disk := true; dz_inline_secrets := true;
     dz_regular_file := true; dz_unencrypted_connection := true; dz_env_secrets := false |}.

(** legacy.rs:249-252. *)
Definition legacy_tuning : tuning :=
  {| t_num_queues := t_num_queues default_tuning; t_queue_size := 128;
     t_seg_size_max := t_seg_size_max default_tuning;
     t_seg_count_max := t_seg_count_max default_tuning;
     t_poll_timeout_us := t_poll_timeout_us default_tuning; t_cpus := t_cpus default_tuning |}.

(** legacy.rs:198-264 [load_legacy_config], without reading the two files; the second part
    of the result is [track_written], which [config] does not have. *)
Definition load_legacy_config (w : world) (o : legacy_options) (kek : option legacy_kek)
  : res (config * bool) :=
  let kek := match kek with Some k => k | None => default_kek end in
  let! (enc, secrets) :=
    match lo_encryption_key o with
    | Some wrapped =>
        let! xts_key := unwrap_xts_key wrapped kek in
        let def := {| sd_source := SInline (string_of (b64_encode xts_key));
                      sd_encoding := Base64; sd_kek := None |} in
        let! secrets := resolve_secrets w [(LEGACY_XTS_KEY_ID, def)] legacy_danger_zone in
        Ok (Some LEGACY_XTS_KEY_ID, secrets)
    | None => Ok (None, [])
    end in
  Ok ({| k_device := {| d_data_path := lo_path o; d_metadata_path := lo_metadata_path o;
                        d_vhost_socket := None; d_rpc_socket := None |};
         k_tuning := legacy_tuning;
         k_encryption := enc;
         k_source := option_map SrcRaw (lo_image_path o);
         k_dz := legacy_danger_zone;
         k_secrets := secrets |}, lo_track_written o).
End Legacy.
