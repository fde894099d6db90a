(** Loading and validating a configuration.

    Models src/config/v2/tuning.rs [validate], src/config/v2/stripe_source.rs
    (the [validate] functions, [resolve_paths]), src/config/v2/mod.rs
    [DangerZone], and the [load_from_value] functions of
    src/config/v2/load.rs for all four programs.

    The sections are given as already deserialized records (SectionsModel.v
    has the deserialization): a section that fails to deserialize is an error
    before anything here happens.  Includes are in IncludesModel.v. *)
From Coq Require Import List NArith Bool String Ascii.
From Verif Require Import Base IncludesModel SecretsModel.
Import ListNotations.
Local Open Scope N_scope.

(** ** Tuning *)

(** TuningSection, tuning.rs:16-34; [io_engine] and [write_through] have no
    invalid values and are left out. *)
Record tuning := {
  t_num_queues : N;
  t_queue_size : N;
  t_seg_size_max : N;
  t_seg_count_max : N;
  t_poll_timeout_us : N;
  t_cpus : option (list N)
}.

(** MAX_NUM_QUEUES, mod.rs:16. *)
Definition MAX_NUM_QUEUES : N := 63.

(** usize::is_power_of_two: exactly one bit set. *)
Fixpoint ones (p : positive) : N :=
  match p with xH => 1 | xO p' => ones p' | xI p' => 1 + ones p' end.
Definition is_power_of_two (x : N) : bool :=
  match x with N0 => false | Npos p => ones p =? 1 end.

(** TuningSection::validate, tuning.rs:52-105. *)
Definition validate_tuning (t : tuning) : res unit :=
  if (t_num_queues t =? 0) || (MAX_NUM_QUEUES <? t_num_queues t) then Err 1
  else if (t_queue_size t =? 0) || (65536 <? t_queue_size t) || negb (is_power_of_two (t_queue_size t))
  then Err 2
  else if (t_seg_size_max t =? 0) || (1048576 <? t_seg_size_max t) then Err 3
  else if (t_seg_count_max t =? 0) || (256 <? t_seg_count_max t) then Err 4
  else if match t_cpus t with
          | Some cpus => negb (N.of_nat (List.length cpus) =? t_num_queues t)
          | None => false
          end then Err 5
  else if 10000000 <? t_poll_timeout_us t then Err 6
  else Ok tt.

(** TuningSection::default, tuning.rs:36-49 and 107-125. *)
Definition default_tuning : tuning :=
  {| t_num_queues := 1; t_queue_size := 64; t_seg_size_max := 65536; t_seg_count_max := 4;
     t_poll_timeout_us := 1000; t_cpus := None |}.

(** How the backends use it.  [buf_size] of UbiBlkBackendThread::new,
    backend_thread.rs:79, is a u32 product (a panic on overflow in builds with
    overflow checks). *)
Definition vhost_buf_size (t : tuning) : res N :=
  let p := t_seg_count_max t * t_seg_size_max t in
  if p <? 2 ^ 32 then Ok p else Panic.

(** [queues_per_thread], backend.rs:79: [1 << i] on u64, a panic when
    [i >= 64]. *)
Definition queue_mask (i : N) : res N := if i <? 64 then Ok (2 ^ i) else Panic.

(** The virtio configuration's [num_queues as u16], backend.rs:60, and the
    ublk backend's [num_queues as u16] and [queue_size as u16],
    ublk/mod.rs:65-66: [as] keeps the low 16 bits. *)
Definition as_u16 (x : N) : N := x mod 65536.
Definition virtio_num_queues (t : tuning) : N := as_u16 (t_num_queues t).
Definition ublk_num_queues (t : tuning) : N := as_u16 (t_num_queues t).
Definition ublk_depth (t : tuning) : N := as_u16 (t_queue_size t).

(** maybe_pin_cpu, backend.rs:91-97: [cpus[thread_index]]. *)
Definition pin_cpu (t : tuning) (thread : nat) : res (option N) :=
  match t_cpus t with
  | None => Ok None
  | Some cpus => let! c := index cpus thread in Ok (Some c)
  end.

(** UringBlockDevice::new (bdev_uring.rs:210) and UringIoChannel::new
    (bdev_uring.rs:46): the queue size must be a power of two that fits u32. *)
Definition uring_entries (t : tuning) : res N :=
  if negb (is_power_of_two (t_queue_size t)) then Err 1
  else if t_queue_size t <? 2 ^ 32 then Ok (t_queue_size t) else Err 2.

(** ** Paths *)

(** resolve_path, load.rs:74-80, with PathBuf::join on Unix. *)
Fixpoint ends_with_slash (s : string) : bool :=
  match s with
  | EmptyString => false
  | String c EmptyString => Ascii.eqb c "/"
  | String _ r => ends_with_slash r
  end.
Definition join (dir path : string) : string :=
  match dir with
  | EmptyString => path
  | _ => if ends_with_slash dir then (dir ++ path)%string else (dir ++ "/" ++ path)%string
  end.
Definition resolve_path (dir path : string) : string :=
  if starts_with_slash path then path else join dir path.

(** ** Sections *)

(** DeviceSection, mod.rs:121-132: its paths. *)
Record device := {
  d_data_path : string;
  d_metadata_path : option string;
  d_vhost_socket : option string;
  d_rpc_socket : option string
}.

(** RemoteStripeConfig, stripe_source.rs:88-102; PskConfig. *)
Record psk := { psk_identity : string; psk_secret : string }.
Record remote := {
  r_psk : option psk;
  r_connect_timeout_ms : N;
  r_operation_attempt_timeout_ms : N;
  r_connections : N
}.

(** ArchiveStorageConfig, stripe_source.rs:166-201, without the fields that
    are not validated (bucket, region, endpoint, autofetch).
    RateLimitedRetryConfig is (enabled, min_delay_ms). *)
Record s3 := {
  s3_prefix : option string;
  s3_access_key_id : string;
  s3_secret_access_key : string;
  s3_session_token : option string;
  s3_connections : N;
  s3_connect_timeout_ms : N;
  s3_operation_attempt_timeout_ms : N;
  s3_max_attempts : N;
  s3_retry : bool * N;
  s3_kek : option string
}.
Inductive archive : Type :=
| AFilesystem (path : string) (kek : option string)
| AS3 (c : s3).

(** StripeSourceConfig, stripe_source.rs:21-33. *)
Inductive stripe_source : Type :=
| SrcRaw (image_path : string)
| SrcArchive (a : archive)
| SrcRemote (r : remote).

(** ** Validation *)

Definition check (b : bool) (tag : N) : res unit := if b then Ok tt else Err tag.

(** RemoteStripeConfig::validate, stripe_source.rs:107-127. *)
Definition validate_remote (c : remote) (dz : danger_zone) (secrets : resolved_map) : res unit :=
  let! _ := check (negb (match r_psk c with None => true | Some _ => false end
                         && negb (dz_enabled dz && dz_unencrypted_connection dz))) 20 in
  let! _ := match r_psk c with
            | None => Ok tt
            | Some p =>
                let! s := get_resolved_secret (psk_secret p) secrets in
                check (16 <=? N.of_nat (List.length s)) 21
            end in
  let! _ := check (negb (r_connect_timeout_ms c =? 0)) 22 in
  let! _ := check (negb (r_operation_attempt_timeout_ms c =? 0)) 23 in
  check (negb (r_connections c =? 0)) 24.

(** validate_archive_kek, stripe_source.rs:353-363. *)
Definition validate_archive_kek (kek : option string) (secrets : resolved_map) : res unit :=
  match kek with
  | None => Ok tt
  | Some k => let! s := get_resolved_secret k secrets in
              check (N.of_nat (List.length s) =? 32) 25
  end.

Definition nonempty (b : list byte) : bool := match b with [] => false | _ => true end.

(** validate_prefix, stripe_source.rs:301-313.  On Unix a "." component is
    reported only when it is the first piece of the path. *)
Definition bad_prefix (p : string) : bool :=
  existsb (String.eqb "..") (pieces p) ||
  match pieces p with q :: _ => String.eqb q "." | [] => false end.

(** ArchiveStorageConfig::validate, stripe_source.rs:239-289. *)
Definition validate_archive (a : archive) (secrets : resolved_map) : res unit :=
  match a with
  | AFilesystem _ kek => validate_archive_kek kek secrets
  | AS3 c =>
      let! _ := validate_archive_kek (s3_kek c) secrets in
      let! k := get_resolved_secret (s3_access_key_id c) secrets in
      let! _ := check (nonempty k) 26 in
      let! k := get_resolved_secret (s3_secret_access_key c) secrets in
      let! _ := check (nonempty k) 27 in
      let! _ := match s3_session_token c with
                | None => Ok tt
                | Some t => let! k := get_resolved_secret t secrets in check (nonempty k) 28
                end in
      let! _ := check (negb (match s3_prefix c with Some p => bad_prefix p | None => false end)) 29 in
      let! _ := check (negb (s3_connections c =? 0)) 30 in
      let! _ := check (negb (s3_connect_timeout_ms c =? 0)) 31 in
      let! _ := check (negb (s3_operation_attempt_timeout_ms c =? 0)) 32 in
      let! _ := check (negb (s3_max_attempts c =? 0)) 33 in
      check (negb (fst (s3_retry c) && (snd (s3_retry c) =? 0))) 34
  end.

(** StripeSourceConfig::validate, stripe_source.rs:73-87. *)
Definition validate_source (s : stripe_source) (dz : danger_zone) (secrets : resolved_map) : res unit :=
  match s with
  | SrcRemote r => validate_remote r dz secrets
  | SrcArchive a => validate_archive a secrets
  | SrcRaw _ => Ok tt
  end.

(** StripeSourceConfig::resolve_paths, stripe_source.rs:61-73. *)
Definition resolve_source_paths (dir : string) (s : stripe_source) : stripe_source :=
  match s with
  | SrcRaw p => SrcRaw (resolve_path dir p)
  | SrcArchive (AFilesystem p kek) => SrcArchive (AFilesystem (resolve_path dir p) kek)
  | other => other
  end.

(** EncryptionSection::validate_secrets, load.rs:175-197. *)
Definition validate_encryption (xts_key : string) (secrets : resolved_map) : res unit :=
  match lookup xts_key secrets with
  | None => Err 40
  | Some k => check (N.of_nat (List.length k) =? 64) 41
  end.

(** resolve_secret_paths, load.rs:254-263. *)
Definition resolve_secret_path (dir : string) (d : secret_def) : secret_def :=
  match sd_source d with
  | SFile p => {| sd_source := SFile (resolve_path dir p); sd_encoding := sd_encoding d; sd_kek := sd_kek d |}
  | _ => d
  end.
Definition resolve_secret_paths (dir : string) (defs : list (string * secret_def)) :=
  map (fun nd => (fst nd, resolve_secret_path dir (snd nd))) defs.

(** load_common, load.rs:241-252, from the parsed [danger_zone] and [secrets]
    sections. *)
Definition load_common (w : world) (dir : string) (dz : danger_zone)
    (defs : list (string * secret_def)) : res resolved_map :=
  resolve_secrets w (resolve_secret_paths dir defs) dz.

(** resolve_device_paths, load.rs:86-91. *)
Definition resolve_device_paths (dir : string) (d : device) : device :=
  {| d_data_path := resolve_path dir (d_data_path d);
     d_metadata_path := option_map (resolve_path dir) (d_metadata_path d);
     d_vhost_socket := option_map (resolve_path dir) (d_vhost_socket d);
     d_rpc_socket := option_map (resolve_path dir) (d_rpc_socket d) |}.

(** The sections of a device configuration file, after includes are merged. *)
Record sections := {
  c_device : option device;
  c_tuning : option tuning;
  c_encryption : option string;         (* the name of the XTS key secret *)
  c_source : option stripe_source;
  c_dz : danger_zone;                   (* all false when the section is absent *)
  c_secrets : list (string * secret_def)
}.

(** The loaded configuration, mod.rs:22-32. *)
Record config := {
  k_device : device;
  k_tuning : tuning;
  k_encryption : option string;
  k_source : option stripe_source;
  k_dz : danger_zone;
  k_secrets : resolved_map
}.

(** Config::load_from_value, load.rs:25-60, after load_merged. *)
Definition load_config (w : world) (dir : string) (c : sections) : res config :=
  let! secrets := load_common w dir (c_dz c) (c_secrets c) in
  match c_device c with
  | None => Err 50
  | Some d =>
      let t := match c_tuning c with Some t => t | None => default_tuning end in
      let! _ := validate_tuning t in
      let src := option_map (resolve_source_paths dir) (c_source c) in
      let! _ := match src with
                | Some s => validate_source s (c_dz c) secrets
                | None => Ok tt
                end in
      let! _ := match c_encryption c with
                | Some x => validate_encryption x secrets
                | None => check (dz_enabled (c_dz c) && dz_unencrypted_disk (c_dz c)) 51
                end in
      Ok {| k_device := resolve_device_paths dir d; k_tuning := t; k_encryption := c_encryption c;
            k_source := src; k_dz := c_dz c; k_secrets := secrets |}
  end.

(** ArchiveTargetConfig::load_from_value, load.rs:100-112. *)
Definition load_archive_target (w : world) (dir : string) (target : option archive)
    (dz : danger_zone) (defs : list (string * secret_def)) : res (archive * resolved_map) :=
  let! secrets := load_common w dir dz defs in
  match target with
  | None => Err 50
  | Some a => let! _ := validate_archive a secrets in Ok (a, secrets)
  end.

(** ExportArchiveConfig::load_from_value, load.rs:126-142. *)
Definition load_export_archive (w : world) (dir : string) (target : option archive)
    (dz : danger_zone) (defs : list (string * secret_def)) : res (archive * resolved_map) :=
  let! secrets := load_common w dir dz defs in
  match target with
  | None => Err 50
  | Some a =>
      let a' := match a with AFilesystem p kek => AFilesystem (resolve_path dir p) kek | s => s end in
      let! _ := validate_archive a' secrets in Ok (a', secrets)
  end.

(** RemoteStripeServerConfig::load_from_value, load.rs:155-167. *)
Definition load_server (w : world) (dir : string) (server : option remote)
    (dz : danger_zone) (defs : list (string * secret_def)) : res (remote * resolved_map) :=
  let! secrets := load_common w dir dz defs in
  match server with
  | None => Err 50
  | Some r => let! _ := validate_remote r dz secrets in Ok (r, secrets)
  end.

(** DangerZone::ignored_flags, mod.rs:85-106. *)
Local Open Scope string_scope.
Definition ignored_flags (dz : danger_zone) : list string :=
  if dz_enabled dz then []
  else ((if dz_unencrypted_disk dz then ["allow_unencrypted_disk"] else []) ++
        (if dz_inline_secrets dz then ["allow_inline_plaintext_secrets"] else []) ++
        (if dz_regular_file dz then ["allow_secret_over_regular_file"] else []) ++
        (if dz_unencrypted_connection dz then ["allow_unencrypted_connection"] else []) ++
        (if dz_env_secrets dz then ["allow_env_secrets"] else []))%list.
