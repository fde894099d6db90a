(** Model of the archive format: src/archive/{mod,compression,hmac,stripe_hashes}.rs
    and the stateless parts of src/stripe_source/archive.rs and
    src/archive/archiver.rs.  External primitives are parameters: the zstd codec,
    the CBOR and JSON codecs of the serde ecosystem, SHA-256, HMAC-SHA256,
    AES-XTS and AES-GCM. *)
From Coq Require Import List Arith NArith Bool Ascii String.
Import ListNotations.
From Verif Require Import Base CryptModel KeyModel.

Definition ascii_bytes (s : string) : list byte := map N_of_ascii (list_ascii_of_string s).

(** ** archive/compression.rs *)

(** archive/mod.rs:72-80.  The level (an i32) is given by its u32 bit pattern. *)
Inductive compression := CompNone | CompZstd (level : N).

Definition E_U32 := 10%N.
Definition E_SHORT := 11%N.
Definition E_SIZE := 12%N.
Definition E_ZSTD := 13%N.
Definition E_ALIGN := 14%N.
Definition E_PARSE := 15%N.
Definition E_VERSION := 16%N.
Definition E_DOMAIN := 17%N.
Definition E_MAC := 18%N.
Definition E_LENGTH := 19%N.
Definition E_NOT_FOUND := 20%N.
Definition E_HASH := 21%N.
Definition E_TOO_BIG := 22%N.

(** compression.rs:62-64 and stripe_hashes.rs:162-171: zero padding to a
    multiple of the sector size. *)
Definition pad_len (n : nat) : nat := (SECTOR - n mod SECTOR) mod SECTOR.
Definition pad (l : list byte) : list byte := l ++ repeat 0%N (pad_len (List.length l)).

(** compression.rs:55-66 [with_size_header_and_padding]. *)
Definition with_size_header (c : list byte) : res (list byte) :=
  if (2 ^ 32 <=? N.of_nat (List.length c))%N then Err E_U32
  else Ok (pad (le_bytes 4 (N.of_nat (List.length c)) ++ c)).

(** compression.rs:68-86 [compressed_payload]. *)
Definition compressed_payload (data : list byte) : res (list byte) :=
  if List.length data <? 4 then Err E_SHORT
  else
    let! hdr := slice data 0 4 in
    let size := le_val hdr in
    if (N.of_nat (List.length data) <? size + 4)%N then Err E_SIZE
    else slice data 4 (N.to_nat size + 4).

(** stripe_hashes.rs:36-41 [StripeContentSpecifier]. *)
Inductive spec := SZero | SDigest (h : list byte).

(** A [StripeContentMap] is represented by the sorted association list that its
    conversion to a BTreeMap gives (stripe_hashes.rs:53-54, 135-140); its keys
    are usize = u64. *)
Definition content_map := list (nat * spec).

(** stripe_hashes.rs:23-34 [StripeMappingFile]. *)
Record mapping_file := mk_mapping {
  mf_domain : list byte; mf_version : N; mf_ciphertext : list byte;
  mf_plaintext_len : N; mf_tag : list byte }.

(** archive/mod.rs:82-110 [ArchiveMetadata]. *)
Record archive_metadata := mk_ameta {
  am_version : N; am_ssc : N; am_key : option (list byte); am_comp : compression;
  am_hmac_key : list byte; am_hmac : list byte }.

(** The external primitives.  [ArchiveSpec.v] states the laws assumed of them. *)
Record prims := mk_prims {
  zenc : N -> list byte -> list byte;              (* zstd::stream::encode_all, by level *)
  zdec : list byte -> option (list byte);          (* zstd::stream::decode_all *)
  xenc : list byte * list byte -> list byte -> list byte -> list byte;  (* XTS: keys, tweak, sector *)
  xdec : list byte * list byte -> list byte -> list byte -> list byte;
  sha : list byte -> list byte;                    (* SHA-256, utils/hash.rs:10-14 *)
  mac : list byte -> list byte -> list byte;       (* HMAC-SHA256, hmac.rs:9-17 *)
  cbor_map : content_map -> list byte;             (* ciborium, stripe_hashes.rs:144-160 *)
  cbor_map_dec : list byte -> option content_map;
  cbor_file : mapping_file -> list byte;
  cbor_file_dec : list byte -> option mapping_file;
  json : archive_metadata -> list byte;            (* serde_json *)
  json_dec : list byte -> option archive_metadata;
  seal : list byte -> list byte -> list byte -> list byte -> list byte; (* AES-GCM: key, nonce, aad, text *)
  open_ : list byte -> list byte -> list byte -> list byte -> option (list byte) }.

Section Archive.
Variable P : prims.

(** compression.rs:8-21 [compress]. *)
Definition compress (a : compression) (data : list byte) : res (list byte) :=
  if negb (List.length data mod SECTOR =? 0) then Panic
  else match a with
       | CompNone => Ok data
       | CompZstd level => with_size_header (zenc P level data)
       end.

(** compression.rs:42-53 [ensure_sector_aligned]. *)
Definition ensure_sector_aligned (d : list byte) : res (list byte) :=
  if List.length d mod SECTOR =? 0 then Ok d else Err E_ALIGN.

(** compression.rs:24-39 [decompress]. *)
Definition decompress (a : compression) (data : list byte) : res (list byte) :=
  match a with
  | CompNone => Ok data
  | CompZstd _ =>
    let! c := compressed_payload data in
    match zdec P c with
    | None => Err E_ZSTD
    | Some d => ensure_sector_aligned d
    end
  end.

(** ** Per-stripe encryption.  A cipher is the pair of XTS keys. *)
(** archive/archiver.rs:180-190 [maybe_encrypt].  The product
    [stripe_id * stripe_sector_count] is not reduced modulo 2^64 (the tweak is,
    see [tweak]). *)
Definition maybe_encrypt (cipher : option (list byte * list byte)) (ssc : N) (st : nat)
  (buf : list byte) : res (list byte) :=
  if negb (List.length buf mod SECTOR =? 0) then Panic
  else match cipher with
       | None => Ok buf
       | Some k => xts_process (xenc P k) buf (N.of_nat st * ssc) (List.length buf / SECTOR)
       end.

(** archiver.rs:192-211: the object stored for a stripe that is not all zero. *)
Definition stripe_object (cipher : option (list byte * list byte)) (comp : compression) (ssc : N)
  (st : nat) (data : list byte) : res (list byte) :=
  let! c := compress comp data in
  maybe_encrypt cipher ssc st c.

(** archiver.rs:258-260 [is_zero_stripe]. *)
Definition is_zero_stripe (data : list byte) : bool := forallb (fun b => (b =? 0)%N) data.

(** stripe_source/archive.rs:144-161 [maybe_decrypt]. *)
Definition maybe_decrypt (cipher : option (list byte * list byte)) (ssc : N) (st : nat)
  (data : list byte) : res (list byte) :=
  match cipher with
  | None => Ok data
  | Some k =>
    if negb (List.length data mod SECTOR =? 0) then Err E_ALIGN
    else xts_process (xdec P k) data (N.of_nat st * ssc) (List.length data / SECTOR)
  end.

(** ** Hash and MAC *)
(** archive/hmac.rs:19-32 [verify_hmac_tag]: [verify_slice] compares the tags. *)
Definition verify_hmac_tag (key msg tag : list byte) : res unit :=
  if bytes_eqb tag (mac P key msg) then Ok tt else Err E_MAC.

(** stripe_source/archive.rs:163-196 [finish_stripe_fetch] (with 198-206
    [verify_stripe_data]): what the destination buffer of [buflen] bytes holds
    afterwards. *)
Definition finish_stripe_fetch (cipher : option (list byte * list byte)) (comp : compression) (ssc : N)
  (st : nat) (data expected : list byte) (buflen : nat) : res (list byte) :=
  if negb (bytes_eqb (sha P data) expected) then Err E_HASH
  else
    let! d := maybe_decrypt cipher ssc st data in
    let! p := decompress comp d in
    if buflen <? List.length p then Err E_TOO_BIG
    else Ok (p ++ repeat 0%N (buflen - List.length p)).

(** ** archive/stripe_hashes.rs *)

Fixpoint map_get (m : content_map) (st : nat) : option spec :=
  match m with
  | [] => None
  | (k, v) :: r => if k =? st then Some v else map_get r st
  end.

(** HashMap::insert (replaces an existing entry), keeping the list sorted. *)
Fixpoint map_insert (m : content_map) (st : nat) (x : spec) : content_map :=
  match m with
  | [] => [(st, x)]
  | (k, v) :: r =>
    if st <? k then (st, x) :: m
    else if st =? k then (st, x) :: r
    else (k, v) :: map_insert r st x
  end.

Definition MAPPING_VERSION := 1%N.                                    (* stripe_hashes.rs:16 *)
Definition MAPPING_DOMAIN := ascii_bytes "ubiblk-archive-stripe-mapping". (* stripe_hashes.rs:17 *)
Definition XTS_SECTOR_START := (2 ^ 60)%N.                            (* stripe_hashes.rs:21 *)

(** stripe_hashes.rs:173-180 [manifest_hmac_input]. *)
Definition manifest_hmac_input (domain : list byte) (version plaintext_len : N) (payload : list byte)
  : list byte := domain ++ le_bytes 4 version ++ le_bytes 8 plaintext_len ++ payload.

(** stripe_hashes.rs:43-74 [serialize_stripe_mapping]. *)
Definition mapping_payload (cipher : option (list byte * list byte)) (m : content_map) : res (list byte) :=
  let padded := pad (cbor_map P m) in
  match cipher with
  | None => Ok padded
  | Some k => xts_process (xenc P k) padded XTS_SECTOR_START (List.length padded / SECTOR)
  end.

Definition serialize_stripe_mapping (m : content_map) (hmac_key : list byte)
  (cipher : option (list byte * list byte)) : res (list byte) :=
  let plaintext_len := N.of_nat (List.length (cbor_map P m)) in
  let! ct := mapping_payload cipher m in
  let tag := mac P hmac_key (manifest_hmac_input MAPPING_DOMAIN MAPPING_VERSION plaintext_len ct) in
  Ok (cbor_file P (mk_mapping MAPPING_DOMAIN MAPPING_VERSION ct plaintext_len tag)).

(** stripe_hashes.rs:76-142 [deserialize_stripe_mapping].  (usize::try_from of a
    u64 cannot fail on 64-bit machines: lines 122-126 are dead.) *)
Definition deserialize_stripe_mapping (bytes hmac_key : list byte)
  (cipher : option (list byte * list byte)) : res content_map :=
  match cbor_file_dec P bytes with
  | None => Err E_PARSE
  | Some f =>
    if negb (mf_version f =? MAPPING_VERSION)%N then Err E_VERSION
    else if negb (bytes_eqb (mf_domain f) MAPPING_DOMAIN) then Err E_DOMAIN
    else if negb (List.length (mf_ciphertext f) mod SECTOR =? 0) then Err E_ALIGN
    else
      let! _ := verify_hmac_tag hmac_key
                  (manifest_hmac_input (mf_domain f) (mf_version f) (mf_plaintext_len f) (mf_ciphertext f))
                  (mf_tag f) in
      let! dec := match cipher with
                  | None => Ok (mf_ciphertext f)
                  | Some k => xts_process (xdec P k) (mf_ciphertext f) XTS_SECTOR_START
                                (List.length (mf_ciphertext f) / SECTOR)
                  end in
      if (N.of_nat (List.length dec) <? mf_plaintext_len f)%N then Err E_LENGTH
      else match cbor_map_dec P (firstn (N.to_nat (mf_plaintext_len f)) dec) with
           | None => Err E_PARSE
           | Some m => Ok m
           end
  end.

(** ** archive/mod.rs:82-110 [ArchiveMetadata] and archive/hmac.rs *)
Definition META_DOMAIN := ascii_bytes "ARCHIVE_METADATA_HMAC_V1".

(** hmac.rs:63-66 [push_len_prefixed]. *)
Definition len_prefixed (l : list byte) : list byte := le_bytes 8 (N.of_nat (List.length l)) ++ l.

(** hmac.rs:34-61 [metadata_hmac_input]. *)
Definition metadata_hmac_input (m : archive_metadata) : list byte :=
  META_DOMAIN ++ le_bytes 4 (am_version m) ++ le_bytes 8 (am_ssc m) ++
  (match am_key m with Some k => 1%N :: len_prefixed k | None => [0%N] end) ++
  (match am_comp m with CompNone => [0%N] | CompZstd level => 2%N :: le_bytes 4 level end).

(** hmac.rs:73-82 [verify_metadata_hmac_tag]. *)
Definition verify_metadata_hmac_tag (key : list byte) (m : archive_metadata) : res unit :=
  if negb (List.length (am_hmac m) =? 32) then Err E_LENGTH
  else verify_hmac_tag key (metadata_hmac_input m) (am_hmac m).

Definition ARCHIVE_FORMAT_VERSION := 1%N.       (* mod.rs:10-12: also the minimum and maximum *)

(** ** Object names *)
Definition hexdigit (d : N) : byte := if (d <? 10)%N then (48 + d)%N else (87 + d)%N.
Definition hex (l : list byte) : list byte :=
  flat_map (fun b => [hexdigit (b / 16); hexdigit (b mod 16)])%N l.
(** archiver.rs:254-256, stripe_source/archive.rs:208-210 [object_key]. *)
Definition object_key (h : list byte) : list byte := ascii_bytes "data/" ++ hex h.
Definition META_NAME := ascii_bytes "metadata.json".
Definition MAPPING_NAME := ascii_bytes "stripe-mapping".

(** ** Opening an archive: stripe_source/archive.rs:36-105 *)
(** An object store: name to contents.  A get of a missing object fails. *)
Definition store := list byte -> option (list byte).

Record source := mk_source {
  s_cipher : option (list byte * list byte); s_map : content_map; s_ssc : N; s_comp : compression }.

(** 68-78 [fetch_metadata]. *)
Definition fetch_metadata (st : store) : res archive_metadata :=
  match st META_NAME with
  | None => Err E_NOT_FOUND
  | Some b =>
    match json_dec P b with
    | None => Err E_PARSE
    | Some m => if (am_version m =? ARCHIVE_FORMAT_VERSION)%N then Ok m else Err E_VERSION
    end
  end.

(** 97-105 [decrypt_hmac_key]. *)
Definition decrypt_hmac_key (m : archive_metadata) (k : kek) : res (list byte) :=
  let! key := decrypt_key_data (open_ P) k (am_hmac_key m) in
  if List.length key =? 32 then Ok key else Err E_LENGTH.

(** 36-62 [new] with 80-95 [fetch_stripe_hashes]. *)
Definition open_archive (st : store) (k : kek) : res source :=
  let! m := fetch_metadata st in
  let! hmac_key := decrypt_hmac_key m k in
  let! _ := verify_metadata_hmac_tag hmac_key m in
  let! cipher := match am_key m with
                 | None => Ok None
                 | Some e => let! c := from_encrypted_key (open_ P) k e in Ok (Some c)
                 end in
  match st MAPPING_NAME with
  | None => Err E_NOT_FOUND
  | Some b =>
    let! hashes := deserialize_stripe_mapping b hmac_key cipher in
    Ok (mk_source cipher hashes (am_ssc m) (am_comp m))
  end.

(** 270-272 [has_stripe]. *)
Definition has_stripe (s : source) (st : nat) : bool :=
  match map_get (s_map s) st with Some _ => true | None => false end.

(** 262-268 [sector_count]: [max_stripe_id] is the largest key (48). *)
Definition max_stripe_id (m : content_map) : nat := fold_right (fun e a => Nat.max (fst e) a) 0 m.
Definition source_sector_count (s : source) : N :=
  match s_map s with [] => 0 | _ => N.of_nat (max_stripe_id (s_map s) + 1) * s_ssc s end%N.

(** The result of fetching stripe [i] of an opened archive from an unchanging
    store into a buffer of [buflen] bytes: 213-256 [request] and [poll] for one
    stripe ([ArchiveSourceModel.v] models them with several requests in
    flight). *)
Definition fetch_stripe (st : store) (s : source) (i buflen : nat) : res (list byte) :=
  match map_get (s_map s) i with
  | None | Some SZero => Ok (repeat 0%N buflen)
  | Some (SDigest h) =>
    match st (object_key h) with
    | None => Err E_NOT_FOUND
    | Some data => finish_stripe_fetch (s_cipher s) (s_comp s) (s_ssc s) i data h buflen
    end
  end.

End Archive.
