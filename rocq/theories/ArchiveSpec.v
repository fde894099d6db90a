(** Specification vocabulary for archives: the laws assumed of the external
    primitives and what an archive is supposed to contain. *)
From Coq Require Import List Arith NArith Bool Sorted.
Import ListNotations.
From Verif Require Import Base CryptSpec KeyModel ArchiveModel ArchiverModel.

(** Well-typed values: a content map is sorted by stripe with 32-byte digests and
    u64 keys; integers fit their Rust types, and so do bytes and lengths. *)
Definition map_typed (m : content_map) : Prop :=
  StronglySorted lt (map fst m) /\ (N.of_nat (length m) < 2 ^ 64)%N /\
  Forall (fun e => (N.of_nat (fst e) < 2 ^ 64)%N /\
            match snd e with SZero => True | SDigest h => length h = 32 /\ bytes_ok h end) m.

Definition comp_typed (a : compression) : Prop :=
  match a with CompNone => True | CompZstd level => (level < 2 ^ 32)%N end.

Definition ameta_typed (m : archive_metadata) : Prop :=
  (am_version m < 2 ^ 32)%N /\ (am_ssc m < 2 ^ 64)%N /\ comp_typed (am_comp m) /\
  match am_key m with None => True | Some k => bytes_ok k /\ (N.of_nat (length k) < 2 ^ 64)%N end /\
  bytes_ok (am_hmac_key m) /\ bytes_ok (am_hmac m).

Definition mapping_typed (f : mapping_file) : Prop :=
  (mf_version f < 2 ^ 32)%N /\ (mf_plaintext_len f < 2 ^ 64)%N /\
  bytes_ok (mf_domain f) /\ (N.of_nat (length (mf_domain f)) < 2 ^ 64)%N /\
  bytes_ok (mf_ciphertext f) /\ (N.of_nat (length (mf_ciphertext f)) < 2 ^ 64)%N /\
  length (mf_tag f) = 32.

(** What is assumed of the primitives: the codecs are lossless and their
    decoders return well-typed values, XTS is a tweakable cipher on sectors,
    AES-GCM is correct, digests and tags are 32 bytes.  The laws of the codecs are
    theorems for the formats of WireModel.v: see C68. *)
Record lawful (P : prims) : Prop := {
  l_zstd : forall level d, zdec P (zenc P level d) = Some d;
  l_xts : forall k, tweakable_cipher (xenc P k) (xdec P k);
  l_xts_bytes : forall k t v, bytes_ok v -> bytes_ok (xenc P k t v);
  l_sha : forall d, length (sha P d) = 32 /\ bytes_ok (sha P d);
  l_mac : forall k m, length (mac P k m) = 32 /\ bytes_ok (mac P k m);
  l_cbor_map : forall m, map_typed m -> cbor_map_dec P (cbor_map P m) = Some m;
  l_cbor_map_len : forall m, map_typed m -> length (cbor_map P m) <= 128 * length m + 128;
  l_cbor_map_bytes : forall m, map_typed m -> bytes_ok (cbor_map P m);
  l_cbor_file : forall f, mapping_typed f -> cbor_file_dec P (cbor_file P f) = Some f;
  l_cbor_file_typed : forall b f, cbor_file_dec P b = Some f -> mapping_typed f;
  l_json : forall m, ameta_typed m -> json_dec P (json P m) = Some m;
  l_json_typed : forall b m, json_dec P b = Some m -> ameta_typed m;
  l_aead : forall k n a p, open_ P k n a (seal P k n a p) = Some p;
  l_aead_len : forall k n a p, length (seal P k n a p) = length p + 16;
  l_aead_bytes : forall k n a p, bytes_ok p -> bytes_ok (seal P k n a p)
}.

(** The part of it that is not about the formats. *)
Record crypto_lawful (P : prims) : Prop := {
  x_zstd : forall level d, zdec P (zenc P level d) = Some d;
  x_xts : forall k, tweakable_cipher (xenc P k) (xdec P k);
  x_xts_bytes : forall k t v, bytes_ok v -> bytes_ok (xenc P k t v);
  x_sha : forall d, length (sha P d) = 32 /\ bytes_ok (sha P d);
  x_mac : forall k m, length (mac P k m) = 32 /\ bytes_ok (mac P k m);
  x_aead : forall k n a p, open_ P k n a (seal P k n a p) = Some p;
  x_aead_len : forall k n a p, length (seal P k n a p) = length p + 16;
  x_aead_bytes : forall k n a p, bytes_ok p -> bytes_ok (seal P k n a p)
}.

(** ** What the archive of a disk is supposed to contain. *)

(** The stripes with data: those written locally or present in the source. *)
Definition has_data (c : aconf) (st : nat) : Prop :=
  st < ac_count c /\
  exists h, nth_error (ac_headers c) st = Some h /\
    (N.testbit h 1 = true (* WRITTEN *) \/ N.testbit h 2 = true (* HAS_SOURCE *)).

(** The contents of a stripe: the local disk's if it was written or fetched,
    otherwise the source's. *)
Definition contents (c : aconf) (st : nat) : list byte :=
  match nth_error (ac_headers c) st with
  | Some h => if N.testbit h 1 || N.testbit h 0 (* FETCHED *) then ac_dev c st else ac_src c st
  | None => []
  end.

Definition stripe_size (c : aconf) : nat := N.to_nat (ac_ssc c) * 512.

Definition all_zero (d : list byte) : Prop := Forall (fun b => b = 0%N) d.

(** A run's fixed inputs make sense: every stripe has a header, reads deliver
    whole stripes, keys and nonces have their sizes. *)
Record aconf_ok (c : aconf) : Prop := {
  k_count : ac_count c <= length (ac_headers c);
  k_count56 : (N.of_nat (ac_count c) < 2 ^ 56)%N;
  k_ssc : (0 < ac_ssc c < 2 ^ 64)%N;
  k_dev : forall st, st < ac_count c -> length (ac_dev c st) = stripe_size c;
  k_src : forall st, st < ac_count c -> length (ac_src c st) = stripe_size c;
  k_comp : comp_typed (ac_comp c);
  k_hmac : length (ac_hmac_key c) = 32;
  k_nonces : length (ac_nonce_key c) = 12 /\ length (ac_nonce_hmac c) = 12;
  k_cipher : match ac_cipher c with None => True | Some (a, b) => length a = 32 /\ length b = 32 end;
  k_kek : match k_method (ac_kek c) with
          | MNone => True
          | MAes256Gcm => exists key auth, k_key (ac_kek c) = Some key /\ k_auth (ac_kek c) = Some auth /\ length key = 32
          end;
  k_bytes : bytes_ok (ac_hmac_key c) /\ bytes_ok (ac_nonce_key c) /\ bytes_ok (ac_nonce_hmac c) /\
            match ac_cipher c with None => True | Some (a, b) => bytes_ok a /\ bytes_ok b end
}.

(** No two stripes of this disk have different objects with the same digest. *)
Definition no_collision (P : prims) (c : aconf) : Prop :=
  forall st st' o o',
    has_data c st -> has_data c st' ->
    stripe_object P (ac_cipher c) (ac_comp c) (ac_ssc c) st (contents c st) = Ok o ->
    stripe_object P (ac_cipher c) (ac_comp c) (ac_ssc c) st' (contents c st') = Ok o' ->
    sha P o = sha P o' -> o = o'.

(** A run of the archiver from an empty store. *)
Definition archiving (P : prims) (c : aconf) (s : astate) : Prop :=
  exists es, arun P c (anew c) es = Some s.

(** An opened archive shows exactly the disk: its stripes with data are present
    and read back exactly, all others are absent and read as zeros. *)
Definition faithful (P : prims) (c : aconf) (st : store) (src : source) : Prop :=
  s_ssc src = ac_ssc c /\
  forall i,
    (has_stripe src i = true <-> has_data c i) /\
    (has_data c i -> fetch_stripe P st src i (stripe_size c) = Ok (contents c i)) /\
    (~ has_data c i -> fetch_stripe P st src i (stripe_size c) = Ok (repeat 0%N (stripe_size c))).

(** ** Forgeries.  [presented n d msg tag]: object [n] with bytes [d] claims that
    [tag] authenticates [msg]. *)
Definition presented (P : prims) (n d msg tag : list byte) : Prop :=
  (n = META_NAME /\ exists m, json_dec P d = Some m /\ msg = metadata_hmac_input m /\ tag = am_hmac m) \/
  (n = MAPPING_NAME /\ exists f, cbor_file_dec P d = Some f /\ tag = mf_tag f /\
     msg = manifest_hmac_input (mf_domain f) (mf_version f) (mf_plaintext_len f) (mf_ciphertext f)).

(** The store holds a tag that is valid under the archiver's secret key for a
    message the archiver never published a tag for. *)
Definition mac_forged (P : prims) (c : aconf) (s : astate) (st : store) : Prop :=
  exists n d msg tag, st n = Some d /\ presented P n d msg tag /\ tag = mac P (ac_hmac_key c) msg /\
    ~ exists p tag', In p (a_started s) /\ presented P (po_name p) (po_data p) msg tag'.

(** The store holds a wrapped key that unwraps under the key-encryption key but
    that the archiver never published. *)
Definition wrap_forged (P : prims) (c : aconf) (s : astate) (st : store) : Prop :=
  exists d m key, st META_NAME = Some d /\ json_dec P d = Some m /\
    decrypt_key_data (open_ P) (ac_kek c) (am_hmac_key m) = Ok key /\
    forall d0 m0, In (mk_put META_NAME d0) (a_started s) -> json_dec P d0 = Some m0 ->
      am_hmac_key m <> am_hmac_key m0 /\ am_key m0 <> Some (am_hmac_key m).

(** The store holds different bytes with the digest of an archived object. *)
Definition collision_found (P : prims) (c : aconf) (st : store) : Prop :=
  exists i o d, has_data c i /\
    stripe_object P (ac_cipher c) (ac_comp c) (ac_ssc c) i (contents c i) = Ok o /\
    st (object_key (sha P o)) = Some d /\ sha P d = sha P o /\ d <> o.
