(** Model of src/block_device/bdev_lazy/metadata/types.rs (the UBI metadata
    format) and of the CRC-32 it uses. *)
From Coq Require Import List Arith NArith Bool.
From Verif Require Import Base.
Import ListNotations.
Local Open Scope N_scope.

(** src/backends/common/mod.rs:32 [SECTOR_SIZE]. *)
Definition SECTOR_SIZE : nat := 512.

(** types.rs:5-13.  [b"BDEV_UBI\0"], version 2.0, and the layout constants. *)
Definition UBI_MAGIC_SIZE : nat := 9.
Definition UBI_MAGIC : list byte := [66; 68; 69; 86; 95; 85; 66; 73; 0].
Definition METADATA_VERSION_MAJOR : N := 2.
Definition METADATA_VERSION_MINOR : N := 0.
Definition CRC32_SIZE : nat := 4.
Definition STRIPE_HEADERS_PER_SECTOR : nat := 508. (* SECTOR_SIZE - CRC32_SIZE *)
Definition STRIPE_COUNT_OFFSET : nat := 14.        (* UBI_MAGIC_SIZE + 2 + 2 + 1 *)
Definition MAX_STRIPE_SECTOR_COUNT_SHIFT : N := 17.

(** types.rs:16-25 [metadata_flags]. *)
Definition FLAG_FETCHED : N := 1.
Definition FLAG_WRITTEN : N := 2.
Definition FLAG_HAS_SOURCE : N := 4.

(** types.rs:29-43 [UbiMetadata]. *)
Record metadata := mk_metadata {
  md_magic : list byte;          (* [u8; 9] *)
  md_version_major : list byte;  (* [u8; 2], little endian *)
  md_version_minor : list byte;  (* [u8; 2], little endian *)
  md_shift : byte;               (* stripe_sector_count_shift *)
  md_headers : list byte         (* stripe_headers *)
}.

(** CRC-32 as computed by [crc32fast::hash] (used in types.rs:46-48): IEEE
    802.3, reflected polynomial 0xEDB88320, initial value and final xor
    0xFFFFFFFF.  crc32fast's table/SIMD code is replaced by the bitwise
    definition of the same function. *)
Definition CRC_POLY : N := 3988292384. (* 0xEDB88320 *)
Definition CRC_MASK : N := 4294967295. (* 0xFFFFFFFF *)

Definition crc_bit (c : N) : N :=
  if N.odd c then N.lxor (N.div2 c) CRC_POLY else N.div2 c.

Fixpoint iter_n {A} (n : nat) (f : A -> A) (x : A) : A :=
  match n with O => x | S n' => iter_n n' f (f x) end.

Definition crc_byte (c : N) (b : byte) : N := iter_n 8 crc_bit (N.lxor c b).

Definition crc32 (data : list byte) : N :=
  N.lxor (fold_left crc_byte data CRC_MASK) CRC_MASK.

(** types.rs:46-48 [compute_sector_crc32]. *)
Definition compute_sector_crc32 (data : list byte) : list byte := le_bytes CRC32_SIZE (crc32 data).

(** types.rs:52-61 [write_sector_with_crc32] on a 512-byte [sector_buf]: the
    result is the new contents of the buffer.  [Panic] is the debug assertion at
    line 54 (in a release build contents of 509..512 bytes would be accepted and
    partly overwritten; no caller passes more than 508). *)
Definition write_sector_with_crc32 (contents : list byte) : res (list byte) :=
  if Nat.leb (length contents) (SECTOR_SIZE - CRC32_SIZE) then
    let body := contents ++ repeat 0 (SECTOR_SIZE - CRC32_SIZE - length contents) in
    Ok (body ++ compute_sector_crc32 body)
  else Panic.

(** types.rs:64-68 [sector_crc32_is_valid].  Both slices are in bounds for a
    512-byte sector; on shorter input the indexing panics. *)
Definition sector_crc32_is_valid (sector_buf : list byte) : res bool :=
  let! body := slice sector_buf 0 (SECTOR_SIZE - CRC32_SIZE) in
  let! crc := slice sector_buf (SECTOR_SIZE - CRC32_SIZE) SECTOR_SIZE in
  Ok (bytes_eqb crc (compute_sector_crc32 body)).

(** [usize::div_ceil]. *)
Definition div_ceil (a b : nat) : nat := ((a + (b - 1)) / b)%nat.

(** types.rs:83-87. *)
Definition stripe_header_sector_count (m : metadata) : nat :=
  div_ceil (length (md_headers m)) STRIPE_HEADERS_PER_SECTOR.

(** types.rs:89-92. *)
Definition metadata_size (m : metadata) : nat :=
  (SECTOR_SIZE + stripe_header_sector_count m * SECTOR_SIZE)%nat.

(** types.rs:95-97 and 100-102. *)
Definition stripe_id_to_sector (stripe_id : nat) : nat :=
  (stripe_id / STRIPE_HEADERS_PER_SECTOR + 1)%nat.
Definition stripe_id_to_group (stripe_id : nat) : nat := (stripe_id / STRIPE_HEADERS_PER_SECTOR)%nat.

(** types.rs:104-106. *)
Definition stripe_sector_count (m : metadata) : N := N.shiftl 1 (md_shift m).
(** types.rs:108-110. *)
Definition stripe_size (m : metadata) : N := stripe_sector_count m * 512.
(** types.rs:112-114. *)
Definition stripe_count (m : metadata) : N := N.of_nat (length (md_headers m)).

(** types.rs:134-159 [new]. *)
Definition metadata_new (shift : byte) (base_stripe_count image_stripe_count : nat) : metadata :=
  mk_metadata UBI_MAGIC (le_bytes 2 METADATA_VERSION_MAJOR) (le_bytes 2 METADATA_VERSION_MINOR)
    shift
    (map (fun i => if Nat.ltb i image_stripe_count then FLAG_HAS_SOURCE else 0)
         (seq 0 base_stripe_count)).

(** types.rs:161-186 [new_from_stripe_source]; the stripe source is represented
    by its [has_stripe] predicate. *)
Definition metadata_new_from_stripe_source (shift : byte) (base_stripe_count : nat)
    (has_stripe : nat -> bool) : metadata :=
  mk_metadata UBI_MAGIC (le_bytes 2 METADATA_VERSION_MAJOR) (le_bytes 2 METADATA_VERSION_MINOR)
    shift
    (map (fun i => if has_stripe i then FLAG_HAS_SOURCE else 0) (seq 0 base_stripe_count)).

(** types.rs:274-287: the loop reading the stripe-header sectors. *)
Fixpoint read_groups (todo group : nat) (buf : list byte) (all_headers : list byte)
  : res (list byte) :=
  match todo with
  | O => Ok all_headers
  | S todo' =>
      let sector_start := (SECTOR_SIZE + group * SECTOR_SIZE)%nat in
      if negb (Nat.leb (sector_start + SECTOR_SIZE) (length buf)) then Panic else
      let! sector_data := slice buf sector_start (sector_start + SECTOR_SIZE) in
      let! header_data := slice sector_data 0 STRIPE_HEADERS_PER_SECTOR in
      let! valid := sector_crc32_is_valid sector_data in
      if negb valid then Err 7 else
      read_groups todo' (S group) buf (all_headers ++ header_data)
  end.

(** types.rs:190-300 [from_bytes].  Error tags: 1 too small, 2 not a multiple of
    the sector size, 3 header CRC, 4 magic, 5 version, 6 shift, 8 stripe count,
    7 CRC of a header group. *)
Definition from_bytes (buf : list byte) : res metadata :=
  if Nat.ltb (length buf) SECTOR_SIZE then Err 1 else
  if negb (Nat.eqb (Nat.modulo (length buf) SECTOR_SIZE) 0) then Err 2 else
  let! sector0 := slice buf 0 SECTOR_SIZE in
  let! header_crc_valid := sector_crc32_is_valid sector0 in
  if negb header_crc_valid then Err 3 else
  let! magic := slice buf 0 UBI_MAGIC_SIZE in
  if negb (bytes_eqb magic UBI_MAGIC) then Err 4 else
  let! version_major := slice buf UBI_MAGIC_SIZE (UBI_MAGIC_SIZE + 2) in
  let! version_minor := slice buf (UBI_MAGIC_SIZE + 2) (UBI_MAGIC_SIZE + 4) in
  if negb (bytes_eqb version_major (le_bytes 2 METADATA_VERSION_MAJOR))
     || negb (bytes_eqb version_minor (le_bytes 2 METADATA_VERSION_MINOR)) then Err 5 else
  let! shift := index buf (UBI_MAGIC_SIZE + 4) in
  if MAX_STRIPE_SECTOR_COUNT_SHIFT <? shift then Err 6 else
  let! b0 := index buf STRIPE_COUNT_OFFSET in
  let! b1 := index buf (STRIPE_COUNT_OFFSET + 1) in
  let! b2 := index buf (STRIPE_COUNT_OFFSET + 2) in
  let! b3 := index buf (STRIPE_COUNT_OFFSET + 3) in
  let stripe_count := le_val [b0; b1; b2; b3] in
  let data_sectors_max := Nat.div (length buf - SECTOR_SIZE) SECTOR_SIZE in
  let max_stripe_count := (data_sectors_max * STRIPE_HEADERS_PER_SECTOR)%nat in
  if N.of_nat max_stripe_count <? stripe_count then Err 8 else
  let stripe_count := N.to_nat stripe_count in
  let data_sectors := div_ceil stripe_count STRIPE_HEADERS_PER_SECTOR in
  let! all_headers := read_groups data_sectors 0 buf [] in
  if negb (Nat.leb stripe_count (length all_headers)) then Panic else
  Ok (mk_metadata magic version_major version_minor shift (firstn stripe_count all_headers)).

(** types.rs:333-341: the loop writing the stripe-header sectors. *)
Fixpoint write_groups (todo group : nat) (headers : list byte) (buf : list byte)
  : res (list byte) :=
  match todo with
  | O => Ok buf
  | S todo' =>
      let start := (group * STRIPE_HEADERS_PER_SECTOR)%nat in
      let end_ := Nat.min (start + STRIPE_HEADERS_PER_SECTOR) (length headers) in
      let! h := slice headers start end_ in
      let sector_start := (SECTOR_SIZE + group * SECTOR_SIZE)%nat in
      if negb (Nat.leb (sector_start + SECTOR_SIZE) (length buf)) then Panic else
      let! sec := write_sector_with_crc32 h in
      write_groups todo' (S group) headers (splice buf sector_start sec)
  end.

(** types.rs:304-343 [write_to_buf]: returns the new contents of [buf].  The
    fixed-size array fields of [UbiMetadata] are concatenated directly. *)
Definition write_to_buf (m : metadata) (buf : list byte) : res (list byte) :=
  if Nat.ltb (length buf) (metadata_size m) then Err 1 else
  let stripe_count := N.of_nat (length (md_headers m)) in
  if negb (stripe_count <? 2 ^ 32) then Err 2 else
  let header := md_magic m ++ md_version_major m ++ md_version_minor m ++ [md_shift m]
                ++ le_bytes 4 stripe_count in
  let! sec := write_sector_with_crc32 header in
  write_groups (stripe_header_sector_count m) 0 (md_headers m) (splice buf 0 sec).

(** types.rs:345-349 [has_fetched_all_stripes]. *)
Definition has_fetched_all_stripes (m : metadata) : bool :=
  forallb (fun h => (N.land h FLAG_HAS_SOURCE =? 0) || negb (N.land h FLAG_FETCHED =? 0))
          (md_headers m).

(** metadata_flusher.rs:205-211: the sector image written when the header byte
    of [stripe_id] is updated in memory ([headers] is the updated vector). *)
Definition flusher_sector (headers : list byte) (stripe_id : nat) : res (list byte) :=
  let group := stripe_id_to_group stripe_id in
  let headers_start := (group * STRIPE_HEADERS_PER_SECTOR)%nat in
  let headers_end := Nat.min (headers_start + STRIPE_HEADERS_PER_SECTOR) (length headers) in
  let! hs := slice headers headers_start headers_end in
  write_sector_with_crc32 hs.
