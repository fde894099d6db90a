(** From a merged configuration file to its sections: what serde's derived deserializers
    make of the tables (src/config/v2/mod.rs, tuning.rs, secrets.rs, stripe_source.rs and
    load.rs:18-60, 94-172, 241-292).

    Simplified: sections and sub-tables written as arrays, and enumerations written
    otherwise than documented, are refused here (the toml crate may take an array for a
    structure, by position).  Strings are Coq strings, paths are strings. *)
From Coq Require Import String List NArith ZArith Bool.
From Verif Require Import Base IncludesModel SecretsModel ConfigModel.
Import ListNotations.
Local Open Scope string_scope.

(** What a leaf of the file is. *)
Inductive atom :=
| AStr (s : string)
| AInt (z : Z)          (* TOML integers are 64-bit signed *)
| ABool (b : bool)
| AInts (l : list Z)    (* an array of integers *)
| AOther.               (* floats, dates, other arrays *)

(** tuning.rs:5-12. *)
Inductive io_engine := IoUring | Sync.

(** tuning.rs:14-34 [TuningSection]. *)
Record tuning_section := mk_tuning_section {
  ts_num_queues : N;
  ts_queue_size : N;
  ts_seg_size_max : N;
  ts_seg_count_max : N;
  ts_poll_timeout_us : N;
  ts_cpus : option (list N);
  ts_io_engine : io_engine;
  ts_write_through : bool
}.

(** mod.rs:119-132 [DeviceSection]. *)
Record device_section := mk_device_section {
  ds_data_path : string;
  ds_metadata_path : option string;
  ds_vhost_socket : option string;
  ds_rpc_socket : option string;
  ds_device_id : string;
  ds_track_written : bool
}.

(** stripe_source.rs:397-402 [PskConfig]; 88-102 [RemoteStripeConfig]. *)
Record remote_section := mk_remote_section {
  rs_address : string;
  rs_psk : option psk;
  rs_autofetch : bool;
  rs_connect_timeout_ms : N;
  rs_operation_attempt_timeout_ms : N;
  rs_connections : N
}.

(** stripe_source.rs:206-219 [RateLimitedRetryConfig]. *)
Record retry_section := mk_retry_section {
  rr_enabled : bool;
  rr_min_delay_ms : N;
  rr_jitter_ms : N
}.

(** stripe_source.rs:166-201 [ArchiveStorageConfig]. *)
Record fs_section := mk_fs_section {
  fs_path : string;
  fs_kek : option string;
  fs_autofetch : bool
}.
Record s3_section := mk_s3_section {
  ss_bucket : string;
  ss_prefix : option string;
  ss_region : option string;
  ss_access_key_id : string;
  ss_secret_access_key : string;
  ss_session_token : option string;
  ss_endpoint : option string;
  ss_connections : N;
  ss_connect_timeout_ms : N;
  ss_operation_attempt_timeout_ms : N;
  ss_max_attempts : N;
  ss_retry : retry_section;
  ss_kek : option string;
  ss_autofetch : bool
}.
Inductive archive_section := FsSection (f : fs_section) | S3Section (s : s3_section).

(** stripe_source.rs:21-33 [StripeSourceConfig]. *)
Inductive source_section :=
| RawSection (image_path : string) (autofetch copy_on_read : bool)
| ArchiveSection (a : archive_section)
| RemoteSection (r : remote_section).

Section Parse.
Variable atom_of : leaf -> atom.

(** ** Values *)
Definition p_str (v : value) : res string :=
  match v with VLeaf l => match atom_of l with AStr s => Ok s | _ => Err 70 end | _ => Err 70 end.
Definition p_bool (v : value) : res bool :=
  match v with VLeaf l => match atom_of l with ABool b => Ok b | _ => Err 70 end | _ => Err 70 end.

(** An unsigned integer type of [bits] bits. *)
Definition to_uint (bits : N) (z : Z) : res N :=
  if ((0 <=? z) && (z <? 2 ^ Z.of_N bits))%Z then Ok (Z.to_N z) else Err 71.
Definition p_uint (bits : N) (v : value) : res N :=
  match v with VLeaf l => match atom_of l with AInt z => to_uint bits z | _ => Err 70 end | _ => Err 70 end.
Fixpoint to_uints (l : list Z) : res (list N) :=
  match l with
  | [] => Ok []
  | z :: r => let! n := to_uint 64 z in let! ns := to_uints r in Ok (n :: ns)
  end.
Definition p_uints (v : value) : res (list N) :=
  match v with VLeaf l => match atom_of l with AInts zs => to_uints zs | _ => Err 70 end | _ => Err 70 end.

(** An externally tagged enumeration: a table with one key, the variant. *)
Definition p_variant (v : value) : res (string * value) :=
  match v with VTable [(k, u)] => Ok (k, u) | _ => Err 72 end.

(** secrets.rs:34-38 [SecretRef]. *)
Definition p_ref (v : value) : res string :=
  let! (k, u) := p_variant v in
  if String.eqb k "ref" then p_str u else Err 72.

(** secrets.rs:18-24 [SecretSource]. *)
Definition p_secret_source (v : value) : res secret_source :=
  let! (k, u) := p_variant v in
  if String.eqb k "file" then let! s := p_str u in Ok (SFile s)
  else if String.eqb k "inline" then let! s := p_str u in Ok (SInline s)
  else if String.eqb k "env" then let! s := p_str u in Ok (SEnv s)
  else Err 72.

(** secrets.rs:26-32 [SecretEncoding]; tuning.rs:5-12. *)
Definition p_encoding (v : value) : res encoding :=
  let! s := p_str v in
  if String.eqb s "plaintext" then Ok Plaintext
  else if String.eqb s "base64" then Ok Base64 else Err 72.
Definition p_engine (v : value) : res io_engine :=
  let! s := p_str v in
  if String.eqb s "io_uring" then Ok IoUring
  else if String.eqb s "sync" then Ok Sync else Err 72.

(** ** Structures: a required field, one of type [Option], one with a default;
    [deny_unknown_fields]. *)
Definition req {A} (k : string) (p : value -> res A) (t : table) : res A :=
  match get k t with Some v => p v | None => Err 73 end.
Definition opt {A} (k : string) (p : value -> res A) (t : table) : res (option A) :=
  match get k t with Some v => let! x := p v in Ok (Some x) | None => Ok None end.
Definition dft {A} (k : string) (p : value -> res A) (d : A) (t : table) : res A :=
  match get k t with Some v => p v | None => Ok d end.
Definition known (ks : list string) (t : table) : res unit :=
  if forallb (fun kv => existsb (String.eqb (fst kv)) ks) t then Ok tt else Err 74.
Definition as_table {A} (p : table -> res A) (v : value) : res A :=
  match v with VTable t => p t | VLeaf _ => Err 70 end.

(** mod.rs:65-80 [DangerZone]. *)
Definition p_danger_zone : value -> res danger_zone := as_table (fun t =>
  let! _ := known ["enabled"; "allow_unencrypted_disk"; "allow_inline_plaintext_secrets";
                   "allow_secret_over_regular_file"; "allow_unencrypted_connection"; "allow_env_secrets"] t in
  let! a := dft "enabled" p_bool false t in
  let! b := dft "allow_unencrypted_disk" p_bool false t in
  let! c := dft "allow_inline_plaintext_secrets" p_bool false t in
  let! d := dft "allow_secret_over_regular_file" p_bool false t in
  let! e := dft "allow_unencrypted_connection" p_bool false t in
  let! f := dft "allow_env_secrets" p_bool false t in
  Ok {| dz_enabled := a; dz_unencrypted_disk := b; dz_inline_secrets := c;
        dz_regular_file := d; dz_unencrypted_connection := e; dz_env_secrets := f |}).

(** mod.rs:119-136. *)
Definition p_device : value -> res device_section := as_table (fun t =>
  let! _ := known ["data_path"; "metadata_path"; "vhost_socket"; "rpc_socket"; "device_id"; "track_written"] t in
  let! a := req "data_path" p_str t in
  let! b := opt "metadata_path" p_str t in
  let! c := opt "vhost_socket" p_str t in
  let! d := opt "rpc_socket" p_str t in
  let! e := dft "device_id" p_str "ubiblk" t in
  let! f := dft "track_written" p_bool false t in
  Ok (mk_device_section a b c d e f)).

(** tuning.rs:14-34, 107-125. *)
Definition p_tuning : value -> res tuning_section := as_table (fun t =>
  let! _ := known ["num_queues"; "queue_size"; "seg_size_max"; "seg_count_max"; "poll_timeout_us";
                   "cpus"; "io_engine"; "write_through"] t in
  let! a := dft "num_queues" (p_uint 64) 1%N t in
  let! b := dft "queue_size" (p_uint 64) 64%N t in
  let! c := dft "seg_size_max" (p_uint 32) 65536%N t in
  let! d := dft "seg_count_max" (p_uint 32) 4%N t in
  let! e := dft "poll_timeout_us" (p_uint 64) 1000%N t in
  let! f := opt "cpus" p_uints t in
  let! g := dft "io_engine" p_engine IoUring t in
  let! h := dft "write_through" p_bool false t in
  Ok (mk_tuning_section a b c d e f g h)).

(** tuning.rs:36-49 [TuningSection::default]. *)
Definition tuning_default : tuning_section :=
  mk_tuning_section 1 64 65536 4 1000 None IoUring false.

(** mod.rs:138-144 [EncryptionSection]. *)
Definition p_encryption : value -> res string := as_table (fun t =>
  let! _ := known ["xts_key"] t in
  req "xts_key" p_ref t).

(** secrets.rs:47-58 [SecretDef]. *)
Definition p_secret_def : value -> res secret_def := as_table (fun t =>
  let! _ := known ["source"; "encoding"; "encrypted_by"] t in
  let! a := req "source" p_secret_source t in
  let! b := dft "encoding" p_encoding Plaintext t in
  let! c := opt "encrypted_by" p_ref t in
  Ok {| sd_source := a; sd_encoding := b; sd_kek := c |}).

(** secrets.rs:86-107 [parse_secrets]. *)
Fixpoint p_defs (t : table) : res (list (string * secret_def)) :=
  match t with
  | [] => Ok []
  | (k, v) :: r => let! d := p_secret_def v in let! ds := p_defs r in Ok ((k, d) :: ds)
  end.
Definition p_secrets : value -> res (list (string * secret_def)) := as_table p_defs.

(** stripe_source.rs:397-402 [PskConfig]. *)
Definition p_psk : value -> res psk := as_table (fun t =>
  let! _ := known ["identity"; "secret"] t in
  let! a := req "identity" p_str t in
  let! b := req "secret" p_ref t in
  Ok {| psk_identity := a; psk_secret := b |}).

(** stripe_source.rs:88-102. *)
Definition t_remote (t : table) : res remote_section :=
  let! _ := known ["address"; "psk"; "autofetch"; "connect_timeout_ms"; "operation_attempt_timeout_ms";
                   "connections"] t in
  let! a := req "address" p_str t in
  let! b := opt "psk" p_psk t in
  let! c := dft "autofetch" p_bool false t in
  let! d := dft "connect_timeout_ms" (p_uint 64) 5000%N t in
  let! e := dft "operation_attempt_timeout_ms" (p_uint 64) 20000%N t in
  let! f := dft "connections" (p_uint 64) 16%N t in
  Ok (mk_remote_section a b c d e f).

(** stripe_source.rs:206-219. *)
Definition p_retry : value -> res retry_section := as_table (fun t =>
  let! _ := known ["enabled"; "min_delay_ms"; "jitter_ms"] t in
  let! a := dft "enabled" p_bool false t in
  let! b := dft "min_delay_ms" (p_uint 64) 0%N t in
  let! c := dft "jitter_ms" (p_uint 64) 0%N t in
  Ok (mk_retry_section a b c)).

(** stripe_source.rs:163-201: internally tagged with [storage]; the tag is taken out. *)
Definition t_archive (t : table) : res archive_section :=
  let! tag := req "storage" p_str t in
  let t := remove "storage" t in
  if String.eqb tag "filesystem" then
    let! _ := known ["path"; "archive_kek"; "autofetch"] t in
    let! a := req "path" p_str t in
    let! b := opt "archive_kek" p_ref t in
    let! c := dft "autofetch" p_bool false t in
    Ok (FsSection (mk_fs_section a b c))
  else if String.eqb tag "s3" then
    let! _ := known ["bucket"; "prefix"; "region"; "access_key_id"; "secret_access_key"; "session_token";
                     "endpoint"; "connections"; "connect_timeout_ms"; "operation_attempt_timeout_ms";
                     "max_attempts"; "rate_limited_retry"; "archive_kek"; "autofetch"] t in
    let! a := req "bucket" p_str t in
    let! b := opt "prefix" p_str t in
    let! c := opt "region" p_str t in
    let! d := req "access_key_id" p_ref t in
    let! e := req "secret_access_key" p_ref t in
    let! f := opt "session_token" p_ref t in
    let! g := opt "endpoint" p_str t in
    let! h := dft "connections" (p_uint 64) 16%N t in
    let! i := dft "connect_timeout_ms" (p_uint 64) 5000%N t in
    let! j := dft "operation_attempt_timeout_ms" (p_uint 64) 20000%N t in
    let! k := dft "max_attempts" (p_uint 32) 3%N t in
    let! l := dft "rate_limited_retry" p_retry (mk_retry_section false 0 0) t in
    let! m := opt "archive_kek" p_ref t in
    let! n := dft "autofetch" p_bool false t in
    Ok (S3Section (mk_s3_section a b c d e f g h i j k l m n))
  else Err 72.

(** stripe_source.rs:19-33: internally tagged with [type]. *)
Definition p_source : value -> res source_section := as_table (fun t =>
  let! tag := req "type" p_str t in
  let t := remove "type" t in
  if String.eqb tag "raw" then
    let! _ := known ["image_path"; "autofetch"; "copy_on_read"] t in
    let! a := req "image_path" p_str t in
    let! b := dft "autofetch" p_bool false t in
    let! c := dft "copy_on_read" p_bool false t in
    Ok (RawSection a b c)
  else if String.eqb tag "archive" then let! a := t_archive t in Ok (ArchiveSection a)
  else if String.eqb tag "remote" then let! r := t_remote t in Ok (RemoteSection r)
  else Err 72).

(** ** The whole file *)

(** What load.rs:25-60 reads from a device configuration, before validation. *)
Record file_sections := mk_file_sections {
  f_device : device_section;
  f_tuning : tuning_section;
  f_encryption : option string;
  f_dz : danger_zone;
  f_source : option source_section;
  f_secrets : list (string * secret_def)
}.

(** load.rs:94-172: the other files, with one section [main] of their own. *)
Record other_sections (A : Type) := mk_other_sections {
  o_main : A;
  o_dz : danger_zone;
  o_secrets : list (string * secret_def)
}.
Arguments mk_other_sections {A}.

Definition no_danger : danger_zone :=
  {| dz_enabled := false; dz_unencrypted_disk := false; dz_inline_secrets := false;
     dz_regular_file := false; dz_unencrypted_connection := false; dz_env_secrets := false |}.

(** load.rs:25-60 with 235-239, 241-252, 265-292.  The order in which sections are read
    matters for error texts only. *)
Definition device_file (fs : string -> file) (root : value) : res file_sections :=
  let! merged := load_merged fs root ["device"; "tuning"; "encryption"; "danger_zone"; "stripe_source"; "secrets"] in
  as_table (fun t =>
    let! dz := dft "danger_zone" p_danger_zone no_danger t in
    let! defs := dft "secrets" p_secrets [] t in
    let! dev := req "device" p_device t in
    let! tun := dft "tuning" p_tuning tuning_default t in
    let! enc := opt "encryption" p_encryption t in
    let! src := opt "stripe_source" p_source t in
    Ok (mk_file_sections dev tun enc dz src defs)) merged.

(** [main]: "target", "archive" (with [as_table t_archive]) or "server" (with
    [as_table t_remote]). *)
Definition other_file {A} (fs : string -> file) (main : string) (p : value -> res A) (root : value)
  : res (other_sections A) :=
  let! merged := load_merged fs root [main; "danger_zone"; "secrets"] in
  as_table (fun t =>
    let! dz := dft "danger_zone" p_danger_zone no_danger t in
    let! defs := dft "secrets" p_secrets [] t in
    let! x := req main p t in
    Ok (mk_other_sections x dz defs)) merged.
End Parse.
Arguments mk_other_sections {A}.

(** ** Validation: the parts ConfigModel.v looks at. *)
Definition v_device (d : device_section) : device :=
  {| d_data_path := ds_data_path d; d_metadata_path := ds_metadata_path d;
     d_vhost_socket := ds_vhost_socket d; d_rpc_socket := ds_rpc_socket d |}.
Definition v_tuning (t : tuning_section) : tuning :=
  {| t_num_queues := ts_num_queues t; t_queue_size := ts_queue_size t;
     t_seg_size_max := ts_seg_size_max t; t_seg_count_max := ts_seg_count_max t;
     t_poll_timeout_us := ts_poll_timeout_us t; t_cpus := ts_cpus t |}.
Definition v_remote (r : remote_section) : remote :=
  {| r_psk := rs_psk r; r_connect_timeout_ms := rs_connect_timeout_ms r;
     r_operation_attempt_timeout_ms := rs_operation_attempt_timeout_ms r;
     r_connections := rs_connections r |}.
Definition v_archive (a : archive_section) : archive :=
  match a with
  | FsSection f => AFilesystem (fs_path f) (fs_kek f)
  | S3Section s => AS3 {|
      s3_prefix := ss_prefix s; s3_access_key_id := ss_access_key_id s;
      s3_secret_access_key := ss_secret_access_key s; s3_session_token := ss_session_token s;
      s3_connections := ss_connections s; s3_connect_timeout_ms := ss_connect_timeout_ms s;
      s3_operation_attempt_timeout_ms := ss_operation_attempt_timeout_ms s;
      s3_max_attempts := ss_max_attempts s;
      s3_retry := (rr_enabled (ss_retry s), rr_min_delay_ms (ss_retry s)); s3_kek := ss_kek s |}
  end.
Definition v_source (s : source_section) : stripe_source :=
  match s with
  | RawSection p _ _ => SrcRaw p
  | ArchiveSection a => SrcArchive (v_archive a)
  | RemoteSection r => SrcRemote (v_remote r)
  end.
Definition v_sections (c : file_sections) : sections :=
  {| c_device := Some (v_device (f_device c)); c_tuning := Some (v_tuning (f_tuning c));
     c_encryption := f_encryption c; c_source := option_map v_source (f_source c);
     c_dz := f_dz c; c_secrets := f_secrets c |}.

(** load.rs:19-60 [Config::load], from the parsed TOML: the sections as read, and the
    validated configuration. *)
Definition load_device_config (atom_of : leaf -> atom) (fs : string -> file) (w : world) (dir : string)
    (root : value) : res (file_sections * config) :=
  let! c := device_file atom_of fs root in
  let! k := load_config w dir (v_sections c) in
  Ok (c, k).
