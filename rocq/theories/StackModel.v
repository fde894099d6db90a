(** Model of putting the layers of a device together from its configuration:
    src/backends/common/mod.rs [BackendEnv::build], [build_with_bgworker],
    [build_bdev_lazy], [build_bgworker], [create_io_engine_device],
    [build_raw_image_device], [build_block_device]; the parts of src/bin/archive.rs and
    src/bin/dump-metadata.rs that open devices.

    SetupModel.v has what comes of it ([start]) for a given disk, source and cipher;
    here are the files, the flags they are opened with, the keys and the order of the
    layers. *)
From Coq Require Import List Arith NArith Bool.
Import ListNotations.
From Verif Require Import Base MetadataModel LazyModel CryptModel SetupModel.
From Verif Require SyncModel UringDiskModel.

Definition path := list byte.
Definition name := list byte.

(** ** The configuration, as loaded *)

(** config/v2/tuning.rs:7-12. *)
Inductive io_engine := IoUring | Sync.

(** config/v2/stripe_source.rs:23-33.  What is behind an archive or a server is not
    seen here. *)
Inductive source_config :=
| CRaw (image_path : path) (autofetch copy_on_read : bool)
| CArchive (autofetch : bool)
| CRemote (autofetch : bool).

(** stripe_source.rs:36-45, 47-52, 54-59. *)
Definition source_autofetch (s : source_config) : bool :=
  match s with CRaw _ a _ => a | CArchive a => a | CRemote a => a end.
Definition source_copy_on_read (s : source_config) : bool :=
  match s with CRaw _ _ c => c | _ => true end.
Definition raw_image_path (s : source_config) : option path :=
  match s with CRaw p _ _ => Some p | _ => None end.

(** The parts of config/v2/mod.rs [Config] that matter here. *)
Record config := mk_config {
  c_data : path;                        (* device.data_path *)
  c_metadata : option path;             (* device.metadata_path *)
  c_track : bool;                       (* device.track_written *)
  c_source : option source_config;      (* stripe_source *)
  c_engine : io_engine;                 (* tuning.io_engine *)
  c_queue : N;                          (* tuning.queue_size *)
  c_through : bool;                     (* tuning.write_through *)
  c_key : option name;                  (* encryption.xts_key *)
  c_secrets : name -> option (list byte) }.

(** ** Devices *)

(** How the channels of a file device open their file (bdev_sync.rs:18-42,
    bdev_uring.rs:24-62). *)
Record opening := mk_opening {
  o_path : path;
  o_engine : io_engine;
  o_entries : N;      (* slots of the ring; nothing for the sync engine *)
  o_readonly : bool;
  o_direct : bool;    (* O_DIRECT *)
  o_sync : bool }.    (* O_SYNC *)

Inductive device :=
| DFile (o : opening) (sectors : nat)
| DCrypt (key1 key2 : list byte) (base : device)
| DLazy (base : device) (image : option device) (track_written : bool).

(** [sector_count]: bdev_sync.rs:117-119, bdev_uring.rs:186-188, bdev_crypt.rs:99-101,
    bdev_lazy/device.rs:373-375. *)
Fixpoint sector_count (d : device) : nat :=
  match d with DFile _ n => n | DCrypt _ _ b => sector_count b | DLazy b _ _ => sector_count b end.

(** All files the channels of a device open. *)
Fixpoint openings (d : device) : list opening :=
  match d with
  | DFile o _ => [o]
  | DCrypt _ _ b => openings b
  | DLazy b i _ => openings b ++ match i with Some (DFile o _) => [o] | _ => [] end
  end.

(** What is outside the program: the files; whether statfs works; what is behind an
    archive or a server. *)
Record world := mk_world {
  w_file : path -> option (list byte);
  w_statfs : path -> bool;
  w_source : stripe_source (list byte) }.

Section Build.
Variable w : world.
(** The sector cipher of two keys, in both directions (crypt/block.rs). *)
Variable xts : list byte -> list byte -> (list byte -> list byte -> list byte) * (list byte -> list byte -> list byte).

(** common/mod.rs:440-464, with the constructors of the two devices: these look at the
    length of the file; it is opened when a channel is made. *)
Definition create_io_engine_device (e : io_engine) (p : path) (queue_size : N) (readonly direct through : bool) : res device :=
  match e with
  | IoUring =>
    match w_file w p with
    | None => if negb ((0 <? queue_size) && (N.land queue_size (queue_size - 1) =? 0))%N then Err 1 else Err 3
    | Some f =>
      let! n := UringDiskModel.open_uring queue_size (N.of_nat (length f)) in
      Ok (DFile (mk_opening p IoUring queue_size readonly direct through) (N.to_nat n))
    end
  | Sync =>
    match w_file w p with
    | None => Err 3
    | Some f =>
      let! n := SyncModel.open_device (length f) in
      Ok (DFile (mk_opening p Sync 0 readonly direct through) n)
    end
  end.

(** common/mod.rs:466-484. *)
Definition build_raw_image_device (c : config) : res (option device) :=
  match c_source c with
  | Some s =>
    match raw_image_path s with
    | Some p => let! d := create_io_engine_device (c_engine c) p 64 true true (c_through c) in Ok (Some d)
    | None => Ok None
    end
  | None => Ok None
  end.

(** crypt/block.rs:164-170 [ensure_32_bytes]. *)
Definition ensure_32_bytes (k : list byte) : res (list byte) :=
  if length k =? 32 then Ok k else Err 61.

(** bdev_crypt.rs:112-118 [CryptBlockDevice::new] with block.rs:23-31. *)
Definition crypt_device (base : device) (key1 key2 : list byte) : res device :=
  let! k1 := ensure_32_bytes key1 in
  let! k2 := ensure_32_bytes key2 in
  Ok (DCrypt k1 k2 base).

(** [slice::split_at], which panics if the slice is too short. *)
Definition split_at (n : nat) (l : list byte) : res (list byte * list byte) :=
  if length l <? n then Panic else Ok (firstn n l, skipn n l).

(** common/mod.rs:486-519. *)
Definition build_block_device (p : path) (c : config) (readonly : bool) : res device :=
  let! d := create_io_engine_device (c_engine c) p (c_queue c) readonly true (c_through c) in
  match c_key c with
  | None => Ok d
  | Some id =>
    match c_secrets c id with
    | None => Err 60
    | Some xts_key => let! k := split_at 32 xts_key in crypt_device d (fst k) (snd k)
    end
  end.

(** common/mod.rs:196-222. *)
Definition build_bdev_lazy (disk : device) (c : config) : res device :=
  let! image :=
    (if match c_source c with None => true | Some s => source_copy_on_read s end
     then Ok None else build_raw_image_device c) in
  Ok (DLazy disk image (c_track c)).

(** What a path holds, and the sectors of that. *)
Definition file_of (p : path) : list byte := match w_file w p with Some f => f | None => [] end.
Definition sector_at (p : path) (x : nat) : list byte := firstn 512 (skipn (512 * x) (file_of p)).

(** A sector cipher on sector [x]; behind the end of a file there is nothing to work on. *)
Definition on_sector (f : list byte -> list byte -> list byte) (x : nat) (v : list byte) : list byte :=
  if length v =? 512 then f (tweak (N.of_nat x)) v else v.

(** Sector [x] as read through the layers of such a device. *)
Definition plain_sector (d : device) (x : nat) : list byte :=
  match d with
  | DFile o _ => sector_at (o_path o) x
  | DCrypt k1 k2 (DFile o _) => let '(_, dec) := xts k1 k2 in on_sector dec x (sector_at (o_path o) x)
  | _ => []
  end.

(** load.rs:11-34 through the layers of the metadata device (these are what
    [build_block_device] returns: a file, or a file behind the cipher). *)
Definition load_metadata (d : device) : res metadata :=
  match d with
  | DFile o _ => load_image None (file_of (o_path o))
  | DCrypt k1 k2 (DFile o _) => load_image (Some (xts k1 k2)) (file_of (o_path o))
  | _ => Err 62
  end.

(** common/mod.rs:30-38 [BgWorkerConfig], without the channel ends: what the background
    worker is to be made from.  [b_ssc], [b_fetched]: the arguments of
    [StripeSourceBuilder::new]; [b_metadata]: the shared state. *)
Record bgworker := mk_bgworker {
  b_target : device;
  b_meta : device;
  b_ssc : nat;
  b_fetched : bool;
  b_autofetch : bool;
  b_metadata : metadata }.

(** common/mod.rs:135-183 [build_with_bgworker]. *)
Definition build_with_bgworker (disk meta : device) (c : config) : res (device * option bgworker) :=
  let! m := load_metadata meta in
  let! l := build_bdev_lazy disk c in
  Ok (l, Some (mk_bgworker disk meta (N.to_nat (stripe_sector_count m)) (has_fetched_all_stripes m)
                 (match c_source c with Some s => source_autofetch s | None => false end) m)).

(** common/mod.rs:51-82 [BackendEnv::build]: the device the guests get and the background
    worker.  185-194 [determine_alignment]: only whether statfs works matters here. *)
Definition build (c : config) : res (device * option bgworker) :=
  if negb (w_statfs w (c_data c)) then Err 63
  else
    let! disk := build_block_device (c_data c) c false in
    match c_metadata c with
    | None => Ok (disk, None)
    | Some p => let! meta := build_block_device p c false in build_with_bgworker disk meta c
    end.

(** stripe_source/builder.rs:42-95 [build]: the source of the background worker; a raw
    image is opened for it a second time. *)
Definition build_stripe_source (c : config) (ssc : nat) (fetched : bool) : res (option device * built) :=
  if fetched then Ok (None, null_source ssc)
  else
    match c_source c with
    | Some (CArchive _) | Some (CRemote _) => let! b := build_source (w_source w) ssc false in Ok (None, b)
    | _ =>
      let! i := build_raw_image_device c in
      match i with
      | Some d => Ok (Some d, bdev_source (sector_count d) ssc)
      | None => Ok (None, null_source ssc)
      end
    end.

(** Sector [x] of what the source delivers (nothing is asked of no source; as in
    SetupModel.v the disk's own sectors stand for it); and whether it delivers whole
    stripes. *)
Definition delivered (c : config) (target : device) (x : nat) : list byte :=
  match c_source c with
  | Some (CRaw p _ _) => sector_at p x
  | Some _ => match w_source w with SrcArchive _ d | SrcRemote _ d => d x | _ => [] end
  | None => plain_sector target x
  end.
Definition by_stripes (c : config) : bool :=
  match c_source c with Some (CArchive _) | Some (CRemote _) => whole_stripes (w_source w) | _ => false end.

(** common/mod.rs:258-287 [build_bgworker], bgworker.rs [BgWorker::new] with the checks in
    metadata_flusher.rs:62-71 and stripe_fetcher.rs:66-76.  The result is the device of
    LazyModel.v, with its stripe headers; [d] is the device the guests got. *)
Definition build_bgworker (c : config) (d : device) (k : bgworker) (blank : list byte)
  : res (option device * (cfg (list byte) * (nat -> N))) :=
  let! s := build_stripe_source c (b_ssc k) (b_fetched k) in
  let n := fst (snd s) in
  let m := b_metadata k in
  if length (md_headers m) <? div_ceil n (b_ssc k) then Err 50
  else if sector_count (b_target k) <? n then Err 51
  else
    match d with
    | DLazy base image track =>
      Ok (fst s,
          (mk_cfg (b_ssc k) (length (md_headers m)) STRIPE_HEADERS_PER_SECTOR (sector_count (b_target k)) n
             (by_stripes c) (delivered c (b_target k)) blank track (match image with Some _ => true | None => false end)
             (b_autofetch k),
           fun st => nth st (md_headers m) 0%N))
    | _ => Err 64
    end.

(** A backend comes up: [BackendEnv::build] and [run_bgworker_thread] (common/mod.rs:84-99).
    The device of the guests, all files that are opened for it and by the worker, and the
    lazy device's parameters if there is one. *)
Record launched := mk_launched {
  l_bdev : device;
  l_worker : list opening;
  l_lazy : option (cfg (list byte) * (nat -> N)) }.

Definition launch (c : config) (blank : list byte) : res launched :=
  let! e := build c in
  match snd e with
  | None => Ok (mk_launched (fst e) [] None)
  | Some k =>
    let! r := build_bgworker c (fst e) k blank in
    Ok (mk_launched (fst e)
          (openings (b_target k) ++ openings (b_meta k) ++ match fst r with Some d => openings d | None => [] end)
          (Some (snd r)))
  end.

(** ** The tools *)

(** bin/archive.rs:88-112: the metadata, the disk and the source of the device to be
    archived. *)
Definition archive_devices (c : config) : res (list opening) :=
  match c_metadata c with
  | None => Err 65
  | Some p =>
    let! meta := build_block_device p c true in
    let! m := load_metadata meta in
    let! disk := build_block_device (c_data c) c true in
    let! s := build_stripe_source c (N.to_nat (stripe_sector_count m)) (has_fetched_all_stripes m) in
    Ok (openings meta ++ openings disk ++ match fst s with Some d => openings d | None => [] end)
  end.

(** bin/dump-metadata.rs:116-129. *)
Definition dump_devices (c : config) : res (list opening) :=
  let! disk := build_block_device (c_data c) c true in
  match c_metadata c with
  | None => Err 65
  | Some p => let! meta := build_block_device p c true in Ok (openings disk ++ openings meta)
  end.

End Build.
