(** Model of setting a device up: the init-metadata command
    (src/bin/init-metadata.rs, src/backends/common/mod.rs [init_metadata],
    [ensure_metadata_file], src/block_device/bdev_lazy/metadata/save.rs) and the
    start of a backend (mod.rs [BackendEnv::build], [build_with_bgworker],
    [build_bgworker], src/stripe_source/builder.rs, load.rs, and the checks in
    metadata_flusher.rs and stripe_fetcher.rs). *)
From Coq Require Import List Arith NArith Bool.
Import ListNotations.
From Verif Require Import Base MetadataModel LazyModel CryptModel.
From Verif Require ArchiveModel RemoteModel.

(** ** The metadata file *)

(** What a path names: a regular file has permission bits and contents; other
    things (directories, devices, pipes) are not told apart. *)
Inductive node :=
| NAbsent
| NFile (mode : N) (content : list byte)
| NSymlink
| NOther.

Definition MODE_600 : N := 384.    (* 0o600 *)
Definition MODE_MASK : N := 4095.  (* 0o7777 *)

(** File::set_len to a larger size: zeros are appended. *)
Definition extend (content : list byte) (n : nat) : list byte :=
  content ++ repeat 0%N (n - length content).

(** One call that may fail: [io k] tells whether the [k]-th call succeeds; the
    states of the path seen so far are collected in [seen], newest first. *)

(** common/mod.rs:413-418: sync_all, 420-435: sync the parent directory of a new
    file. *)
Definition ensure_sync (io : nat -> bool) (created : bool) (seen : list node) : list node * res unit :=
  if negb (io 4) then (seen, Err 14)
  else if created && negb (io 5) then (seen, Err 15)
  else (seen, Ok tt).

(** common/mod.rs:403-411: extend the file if it is too short. *)
Definition ensure_size (io : nat -> bool) (created : bool) (min : nat) (mode : N) (content : list byte)
    (seen : list node) : list node * res unit :=
  if length content <? min then
    if io 3 then ensure_sync io created (NFile mode (extend content min) :: seen) else (seen, Err 13)
  else ensure_sync io created seen.

(** common/mod.rs:385-401: check that it is a regular file, set the mode. *)
Definition ensure_mode (io : nat -> bool) (created : bool) (min : nat) (mode : N) (content : list byte)
    (seen : list node) : list node * res unit :=
  if negb (io 1) then (seen, Err 11)
  else if negb (N.land mode MODE_MASK =? MODE_600)%N then
    if io 2 then ensure_size io created min MODE_600 content (NFile MODE_600 content :: seen) else (seen, Err 12)
  else ensure_size io created min mode content seen.

(** common/mod.rs:365-438 [ensure_metadata_file].  The result: the states of the
    path after each change, newest first, and the outcome.
    create_new fails with AlreadyExists on anything that exists, a symbolic link
    included; the second open has O_NOFOLLOW, so a symbolic link is an error, and
    what is neither a regular file nor refused by open is refused after stat.
    A new file gets the mode 0o600 without the bits of the [umask]. *)
Definition ensure_metadata_file (io : nat -> bool) (umask : N) (p : node) (min : nat) : list node * res unit :=
  if negb (io 0) then ([], Err 10)
  else
    match p with
    | NAbsent =>
      let mode := N.ldiff MODE_600 umask in
      ensure_mode io true min mode [] [NFile mode []]
    | NFile mode content => ensure_mode io false min mode content []
    | NSymlink => ([], Err 16)
    | NOther => ([], Err 17)
    end.

(** ** Devices over files *)

(** bdev_sync.rs:134-160, bdev_uring.rs:217-235: the sectors of a file; a size
    that is not a multiple of the sector size is refused. *)
Definition open_device (bytes : nat) : res nat :=
  if negb (bytes mod SECTOR_SIZE =? 0) then Err 20 else Ok (bytes / SECTOR_SIZE).

(** Encryption of the devices, if configured (common/mod.rs:486-521
    [build_block_device]): the two directions of the sector cipher. *)
Definition cipher := option ((list byte -> list byte -> list byte) * (list byte -> list byte -> list byte)).
Definition encrypt (k : cipher) (buf : list byte) (sectors : nat) : res (list byte) :=
  match k with None => Ok buf | Some (enc, _) => xts_process enc buf 0 sectors end.
Definition decrypt (k : cipher) (buf : list byte) (sectors : nat) : res (list byte) :=
  match k with None => Ok buf | Some (_, dec) => xts_process dec buf 0 sectors end.

(** save.rs:16-61 [save_to_bdev] on a metadata device of [sectors] sectors: what
    the file holds after the write.  (The write of the whole device is one request;
    it reaches the file sector by sector, see SetupSpec.v.) *)
Definition save_image (k : cipher) (m : metadata) (sectors : nat) : res (list byte) :=
  if negb (N.of_nat sectors <? 2 ^ 32)%N then Err 21
  else if (sectors * SECTOR_SIZE) <? metadata_size m then Err 22
  else
    let! front := write_to_buf m (repeat 0%N (metadata_size m)) in
    encrypt k (front ++ repeat 0%N (sectors * SECTOR_SIZE - metadata_size m)) sectors.

(** load.rs:11-34 [load_from_bdev] on the contents of the metadata file. *)
Definition load_image (k : cipher) (file : list byte) : res metadata :=
  let! sectors := open_device (length file) in
  if negb (N.of_nat sectors <? 2 ^ 32)%N then Err 23
  else let! buf := decrypt k file sectors in from_bytes buf.

(** ** Stripe sources *)

(** The [stripe_source] section of the configuration, with what is behind it: a raw
    image of some sectors; an opened archive; the metadata of a stripe server.
    [data x] is sector [x] of what an archive or a server delivers. *)
Inductive stripe_source (V : Type) :=
| SrcNone
| SrcRaw (sectors : nat) (img : nat -> V) (copy_on_read : bool)
| SrcArchive (a : ArchiveModel.source) (data : nat -> V)
| SrcRemote (m : metadata) (data : nat -> V).
Arguments SrcNone {V}. Arguments SrcRaw {V}. Arguments SrcArchive {V}. Arguments SrcRemote {V}.

(** A built source: its size in sectors and which stripes it has. *)
Definition built := (nat * (nat -> bool))%type.

(** builder.rs:48-54 and 91-95 with bdev_null.rs:69-71: a null device has no
    sectors; bdev.rs:57-60 [has_stripe]. *)
Definition bdev_source (sectors ssc : nat) : built := (sectors, fun st => st * ssc <? sectors).
Definition null_source (ssc : nat) : built := bdev_source 0 ssc.

(** builder.rs:42-96 [build]. *)
Definition build_source {V} (s : stripe_source V) (ssc : nat) (has_fetched_all : bool) : res built :=
  if has_fetched_all then Ok (null_source ssc)
  else
    match s with
    | SrcNone => Ok (null_source ssc)
    | SrcRaw n _ _ => Ok (bdev_source n ssc)
    | SrcArchive a _ => Ok (N.to_nat (ArchiveModel.source_sector_count a), ArchiveModel.has_stripe a)
    | SrcRemote m _ =>
      (* remote.rs:147-194: same stripe size, and the size fits *)
      if negb (stripe_sector_count m =? N.of_nat ssc)%N then Err 30
      else let! n := RemoteModel.remote_sector_count m in
           Ok (N.to_nat n, fun st => match RemoteModel.remote_has_stripe (md_headers m) st with Ok b => b | _ => false end)
    end.

(** ** init-metadata *)

(** The configuration of a device. *)
Record setup (V : Type) := mk_setup {
  su_disk : nat;                  (* bytes of the file at data_path *)
  su_base : nat -> V;             (* what its sectors hold *)
  su_source : stripe_source V;
  su_autofetch : bool;
  su_track : bool;                (* track_written *)
  su_cipher : cipher }.
Arguments mk_setup {V}. Arguments su_disk {V}. Arguments su_base {V}. Arguments su_source {V}.
Arguments su_autofetch {V}. Arguments su_track {V}. Arguments su_cipher {V}.

(** init-metadata.rs:6-7. *)
Definition SHIFT_MIN : N := 6.
Definition SHIFT_MAX : N := 16.

Section Setup.
Context {V : Type}.
Variable su : setup V.

(** common/mod.rs:338-355: the metadata of a new device. *)
Definition fresh_metadata (shift : byte) : res metadata :=
  let! sectors := open_device (su_disk su) in
  let ssc := N.to_nat (N.shiftl 1 shift) in
  let n := div_ceil sectors ssc in
  match su_source su with
  | SrcNone => Ok (metadata_new shift n 0)
  | s => let! b := build_source s ssc false in Ok (metadata_new_from_stripe_source shift n (snd b))
  end.

(** The contents of a path that names a file. *)
Definition content_of (p : node) : list byte := match p with NFile _ c => c | _ => [] end.
Definition mode_of (p : node) : N := match p with NFile m _ => m | _ => 0%N end.

(** init-metadata.rs:38-58 and common/mod.rs:331-362 [init_metadata]: the states of
    the path after each change, newest first, and the outcome.  [io 6] and [io 7]:
    the write and the flush succeed. *)
Definition init_metadata (io : nat -> bool) (umask : N) (shift : byte) (p : node) : list node * res unit :=
  if negb ((SHIFT_MIN <=? shift) && (shift <=? SHIFT_MAX))%N then ([], Err 40)
  else
    match fresh_metadata shift with
    | Err e => ([], Err e)
    | Panic => ([], Panic)
    | Ok m =>
      match ensure_metadata_file io umask p (metadata_size m) with
      | (seen, Err e) => (seen, Err e)
      | (seen, Panic) => (seen, Panic)
      | (seen, Ok _) =>
        let now := hd p seen in
        match open_device (length (content_of now)) with
        | Err e => (seen, Err e)
        | Panic => (seen, Panic)
        | Ok sectors =>
          match save_image (su_cipher su) m sectors with
          | Err e => (seen, Err e)
          | Panic => (seen, Panic)
          | Ok image =>
            if negb (io 6) then (seen, Err 41)
            else
              let seen := NFile (mode_of now) image :: seen in
              if negb (io 7) then (seen, Err 42) else (seen, Ok tt)
          end
        end
      end
    end.

(** ** Starting a backend *)

(** The sectors the source delivers, and how: whole stripes from archives and
    servers. *)
Definition source_data (s : stripe_source V) (x : nat) : V :=
  match s with
  | SrcNone => su_base su x
  | SrcRaw _ img _ => img x
  | SrcArchive _ d | SrcRemote _ d => d x
  end.
Definition whole_stripes (s : stripe_source V) : bool :=
  match s with SrcArchive _ _ | SrcRemote _ _ => true | _ => false end.
(** common/mod.rs:203-211 [build_bdev_lazy]: the image is read directly unless it is
    to be copied on reads; only raw images have a path (v2/stripe_source.rs). *)
Definition reads_image (s : stripe_source V) : bool :=
  match s with SrcRaw _ _ copy_on_read => negb copy_on_read | _ => false end.

(** common/mod.rs:51-81 [build] with a metadata path, 132-183
    [build_with_bgworker], 252-290 [build_bgworker]: load the metadata, build the
    source (none if everything has been fetched), and the two checks:
    metadata_flusher.rs:62-71 and stripe_fetcher.rs:66-76.  The result is the device
    of LazyModel.v and its stripe headers. *)
Definition start (blank : V) (file : list byte) : res (cfg V * (nat -> N)) :=
  let! target := open_device (su_disk su) in
  let! m := load_image (su_cipher su) file in
  let ssc := N.to_nat (stripe_sector_count m) in
  let! b := build_source (su_source su) ssc (has_fetched_all_stripes m) in
  let n := fst b in
  if length (md_headers m) <? div_ceil n ssc then Err 50
  else if target <? n then Err 51
  else Ok (mk_cfg ssc (length (md_headers m)) STRIPE_HEADERS_PER_SECTOR target n
             (whole_stripes (su_source su)) (source_data (su_source su)) blank
             (su_track su) (reads_image (su_source su)) (su_autofetch su),
           fun st => nth st (md_headers m) 0%N).

End Setup.
