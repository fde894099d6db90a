(** What a configuration file means, section by section, as the reference in docs/config.md
    has it: for every key its type, whether it must be there, and what is meant when it is
    not; and that nothing else may be written. *)
From Coq Require Import String List NArith ZArith Bool.
From Verif Require Import Base IncludesModel SecretsModel ConfigModel SectionsModel.
Import ListNotations.
Local Open Scope string_scope.

(** [stands v p u]: in [v], the dotted path [p] is present, and what stands there is [u]. *)
Inductive stands : value -> list string -> value -> Prop :=
| stands_here v : stands v [] v
| stands_below t k v p u : In (k, v) t -> stands v p u -> stands (VTable t) (k :: p) u.

Definition absent (v : value) (p : list string) : Prop := forall u, ~ stands v p u.

(** How a value of each type is written. *)
Definition is_str (a : atom) (s : string) : Prop := a = AStr s.
Definition is_bool (a : atom) (b : bool) : Prop := a = ABool b.
Definition is_u64 (a : atom) (n : N) : Prop := a = AInt (Z.of_N n) /\ (n < 18446744073709551616)%N.
Definition is_u32 (a : atom) (n : N) : Prop := a = AInt (Z.of_N n) /\ (n < 4294967296)%N.
Definition is_u64s (a : atom) (l : list N) : Prop :=
  a = AInts (map Z.of_N l) /\ Forall (fun n => n < 18446744073709551616)%N l.
Definition is_engine (a : atom) (e : io_engine) : Prop :=
  a = AStr (match e with IoUring => "io_uring" | Sync => "sync" end).
Definition is_encoding (a : atom) (e : encoding) : Prop :=
  a = AStr (match e with Plaintext => "plaintext" | Base64 => "base64" end).

Section Means.
Variable atom_of : leaf -> atom.

(** The key must be there; it may be missing; it has a default. *)
Definition required {X} (v : value) (p : list string) (R : atom -> X -> Prop) (x : X) : Prop :=
  exists l, stands v p (VLeaf l) /\ R (atom_of l) x.
Definition optional {X} (v : value) (p : list string) (R : atom -> X -> Prop) (o : option X) : Prop :=
  match o with Some x => required v p R x | None => absent v p end.
Definition defaulted {X} (v : value) (p : list string) (R : atom -> X -> Prop) (d x : X) : Prop :=
  required v p R x \/ absent v p /\ x = d.

(** A reference to a secret: "key.ref = name". *)
Definition secret_optional (v : value) (k : string) (o : option string) : Prop :=
  match o with Some x => required v [k; "ref"] is_str x | None => absent v [k] end.

(** Nothing but these paths is written in [v]: whatever is no table stands at one of them,
    and every table is on the way to one of them. *)
Definition only (v : value) (paths : list (list string)) : Prop :=
  (forall p l, stands v p (VLeaf l) -> In p paths) /\
  (forall p t, stands v p (VTable t) -> exists q, q <> [] /\ In (p ++ q)%list paths).

Definition device_means (v : value) (d : device_section) : Prop :=
  required v ["data_path"] is_str (ds_data_path d) /\
  optional v ["metadata_path"] is_str (ds_metadata_path d) /\
  optional v ["vhost_socket"] is_str (ds_vhost_socket d) /\
  optional v ["rpc_socket"] is_str (ds_rpc_socket d) /\
  defaulted v ["device_id"] is_str "ubiblk" (ds_device_id d) /\
  defaulted v ["track_written"] is_bool false (ds_track_written d) /\
  only v [["data_path"]; ["metadata_path"]; ["vhost_socket"]; ["rpc_socket"]; ["device_id"]; ["track_written"]].

Definition tuning_means (v : value) (t : tuning_section) : Prop :=
  defaulted v ["num_queues"] is_u64 1%N (ts_num_queues t) /\
  defaulted v ["queue_size"] is_u64 64%N (ts_queue_size t) /\
  defaulted v ["seg_size_max"] is_u32 65536%N (ts_seg_size_max t) /\
  defaulted v ["seg_count_max"] is_u32 4%N (ts_seg_count_max t) /\
  defaulted v ["poll_timeout_us"] is_u64 1000%N (ts_poll_timeout_us t) /\
  optional v ["cpus"] is_u64s (ts_cpus t) /\
  defaulted v ["io_engine"] is_engine IoUring (ts_io_engine t) /\
  defaulted v ["write_through"] is_bool false (ts_write_through t) /\
  only v [["num_queues"]; ["queue_size"]; ["seg_size_max"]; ["seg_count_max"]; ["poll_timeout_us"];
          ["cpus"]; ["io_engine"]; ["write_through"]].

Definition encryption_means (v : value) (key : string) : Prop :=
  required v ["xts_key"; "ref"] is_str key /\
  only v [["xts_key"; "ref"]].

Definition danger_means (v : value) (d : danger_zone) : Prop :=
  defaulted v ["enabled"] is_bool false (dz_enabled d) /\
  defaulted v ["allow_unencrypted_disk"] is_bool false (dz_unencrypted_disk d) /\
  defaulted v ["allow_inline_plaintext_secrets"] is_bool false (dz_inline_secrets d) /\
  defaulted v ["allow_secret_over_regular_file"] is_bool false (dz_regular_file d) /\
  defaulted v ["allow_unencrypted_connection"] is_bool false (dz_unencrypted_connection d) /\
  defaulted v ["allow_env_secrets"] is_bool false (dz_env_secrets d) /\
  only v [["enabled"]; ["allow_unencrypted_disk"]; ["allow_inline_plaintext_secrets"];
          ["allow_secret_over_regular_file"]; ["allow_unencrypted_connection"]; ["allow_env_secrets"]].

(** One secret: exactly one of source.file, source.inline and source.env. *)
Definition source_word (s : secret_source) : string :=
  match s with SFile _ => "file" | SInline _ => "inline" | SEnv _ => "env" end.
Definition source_text (s : secret_source) : string :=
  match s with SFile x | SInline x | SEnv x => x end.
Definition secret_means (v : value) (d : secret_def) : Prop :=
  required v ["source"; source_word (sd_source d)] is_str (source_text (sd_source d)) /\
  defaulted v ["encoding"] is_encoding Plaintext (sd_encoding d) /\
  secret_optional v "encrypted_by" (sd_kek d) /\
  only v [["source"; source_word (sd_source d)]; ["encoding"]; ["encrypted_by"; "ref"]].

(** The secrets: one definition for each key of the table. *)
Definition secrets_means (v : value) (defs : list (string * secret_def)) : Prop :=
  exists t, v = VTable t /\
    Forall2 (fun kv nd => fst kv = fst nd /\ secret_means (snd kv) (snd nd)) t defs.

(** A remote source, or the server's own section; [tag] is the key that told them apart. *)
Definition remote_means (tag : list (list string)) (v : value) (r : remote_section) : Prop :=
  required v ["address"] is_str (rs_address r) /\
  match rs_psk r with
  | Some k => required v ["psk"; "identity"] is_str (psk_identity k) /\
              required v ["psk"; "secret"; "ref"] is_str (psk_secret k)
  | None => absent v ["psk"]
  end /\
  defaulted v ["autofetch"] is_bool false (rs_autofetch r) /\
  defaulted v ["connect_timeout_ms"] is_u64 5000%N (rs_connect_timeout_ms r) /\
  defaulted v ["operation_attempt_timeout_ms"] is_u64 20000%N (rs_operation_attempt_timeout_ms r) /\
  defaulted v ["connections"] is_u64 16%N (rs_connections r) /\
  only v (tag ++ [["address"]; ["psk"; "identity"]; ["psk"; "secret"; "ref"]; ["autofetch"];
                  ["connect_timeout_ms"]; ["operation_attempt_timeout_ms"]; ["connections"]]).

Definition archive_means (tag : list (list string)) (v : value) (a : archive_section) : Prop :=
  match a with
  | FsSection f =>
      required v ["storage"] is_str "filesystem" /\
      required v ["path"] is_str (fs_path f) /\
      secret_optional v "archive_kek" (fs_kek f) /\
      defaulted v ["autofetch"] is_bool false (fs_autofetch f) /\
      only v (tag ++ [["storage"]; ["path"]; ["archive_kek"; "ref"]; ["autofetch"]])
  | S3Section s =>
      required v ["storage"] is_str "s3" /\
      required v ["bucket"] is_str (ss_bucket s) /\
      optional v ["prefix"] is_str (ss_prefix s) /\
      optional v ["region"] is_str (ss_region s) /\
      required v ["access_key_id"; "ref"] is_str (ss_access_key_id s) /\
      required v ["secret_access_key"; "ref"] is_str (ss_secret_access_key s) /\
      secret_optional v "session_token" (ss_session_token s) /\
      optional v ["endpoint"] is_str (ss_endpoint s) /\
      defaulted v ["connections"] is_u64 16%N (ss_connections s) /\
      defaulted v ["connect_timeout_ms"] is_u64 5000%N (ss_connect_timeout_ms s) /\
      defaulted v ["operation_attempt_timeout_ms"] is_u64 20000%N (ss_operation_attempt_timeout_ms s) /\
      defaulted v ["max_attempts"] is_u32 3%N (ss_max_attempts s) /\
      defaulted v ["rate_limited_retry"; "enabled"] is_bool false (rr_enabled (ss_retry s)) /\
      defaulted v ["rate_limited_retry"; "min_delay_ms"] is_u64 0%N (rr_min_delay_ms (ss_retry s)) /\
      defaulted v ["rate_limited_retry"; "jitter_ms"] is_u64 0%N (rr_jitter_ms (ss_retry s)) /\
      secret_optional v "archive_kek" (ss_kek s) /\
      defaulted v ["autofetch"] is_bool false (ss_autofetch s) /\
      only v (tag ++ [["storage"]; ["bucket"]; ["prefix"]; ["region"]; ["access_key_id"; "ref"];
                      ["secret_access_key"; "ref"]; ["session_token"; "ref"]; ["endpoint"]; ["connections"];
                      ["connect_timeout_ms"]; ["operation_attempt_timeout_ms"]; ["max_attempts"];
                      ["rate_limited_retry"; "enabled"]; ["rate_limited_retry"; "min_delay_ms"];
                      ["rate_limited_retry"; "jitter_ms"]; ["archive_kek"; "ref"]; ["autofetch"]])
  end.

Definition source_means (v : value) (s : source_section) : Prop :=
  match s with
  | RawSection image_path autofetch copy_on_read =>
      required v ["type"] is_str "raw" /\
      required v ["image_path"] is_str image_path /\
      defaulted v ["autofetch"] is_bool false autofetch /\
      defaulted v ["copy_on_read"] is_bool false copy_on_read /\
      only v [["type"]; ["image_path"]; ["autofetch"]; ["copy_on_read"]]
  | ArchiveSection a => required v ["type"] is_str "archive" /\ archive_means [["type"]] v a
  | RemoteSection r => required v ["type"] is_str "remote" /\ remote_means [["type"]] v r
  end.

(** A section that is left out means the same as an empty one. *)
Definition or_empty (m : value) (k : string) (v : value) : Prop :=
  stands m [k] v \/ absent m [k] /\ v = VTable [].

(** A device configuration. *)
Definition file_means (m : value) (c : file_sections) : Prop :=
  (exists v, stands m ["device"] v /\ device_means v (f_device c)) /\
  (exists v, or_empty m "tuning" v /\ tuning_means v (f_tuning c)) /\
  match f_encryption c with
  | Some key => exists v, stands m ["encryption"] v /\ encryption_means v key
  | None => absent m ["encryption"]
  end /\
  (exists v, or_empty m "danger_zone" v /\ danger_means v (f_dz c)) /\
  match f_source c with
  | Some s => exists v, stands m ["stripe_source"] v /\ source_means v s
  | None => absent m ["stripe_source"]
  end /\
  (exists v, or_empty m "secrets" v /\ secrets_means v (f_secrets c)) /\
  (exists t, m = VTable t /\ forall k v, In (k, v) t ->
     In k ["device"; "tuning"; "encryption"; "danger_zone"; "stripe_source"; "secrets"]).

(** The configuration of an archive target, an archive to export, or a stripe server. *)
Definition other_means {A} (main : string) (M : value -> A -> Prop) (m : value) (c : other_sections A) : Prop :=
  (exists v, stands m [main] v /\ M v (o_main A c)) /\
  (exists v, or_empty m "danger_zone" v /\ danger_means v (o_dz A c)) /\
  (exists v, or_empty m "secrets" v /\ secrets_means v (o_secrets A c)) /\
  (exists t, m = VTable t /\ forall k v, In (k, v) t -> In k [main; "danger_zone"; "secrets"]).
End Means.
