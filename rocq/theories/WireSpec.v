(** The formats by their definitions.  Base64 (RFC 4648, section 4): the bits of the
    bytes, six at a time, as characters of the alphabet; "=" fills up the last group of four. *)
From Coq Require Import String List NArith.
From Verif Require Import Base KeyModel ArchiveModel RpcModel.
Import ListNotations.
Local Open Scope N_scope.

Definition alphabet : list byte :=
  text "ABCDEFGHIJKLMNOPQRSTUVWXYZabcdefghijklmnopqrstuvwxyz0123456789+/".

(** Character [c] stands for the six bits [v]. *)
Definition stands_for (c v : N) : Prop := nth_error alphabet (N.to_nat v) = Some c.

Inductive base64 : list byte -> list byte -> Prop :=
| base64_nil : base64 [] []
| base64_three a b c w x y z cw cx cy cz l t :
    byte_ok a -> byte_ok b -> byte_ok c ->
    stands_for cw w -> stands_for cx x -> stands_for cy y -> stands_for cz z ->
    a * 2 ^ 16 + b * 2 ^ 8 + c = w * 2 ^ 18 + x * 2 ^ 12 + y * 2 ^ 6 + z ->
    base64 l t -> base64 (a :: b :: c :: l) (cw :: cx :: cy :: cz :: t)
| base64_two a b w x y cw cx cy :
    byte_ok a -> byte_ok b ->
    stands_for cw w -> stands_for cx x -> stands_for cy y ->
    (a * 2 ^ 8 + b) * 2 ^ 2 = w * 2 ^ 12 + x * 2 ^ 6 + y ->
    base64 [a; b] [cw; cx; cy; 61]
| base64_one a w x cw cx :
    byte_ok a -> stands_for cw w -> stands_for cx x ->
    a * 2 ^ 4 = w * 2 ^ 6 + x ->
    base64 [a] [cw; cx; 61; 61].

(** CBOR by its definition (RFC 8949, section 3): data items and their encodings. *)
Inductive item :=
| Uint (n : N)
| Bytes (b : list byte)
| Text (b : list byte)
| Arr (l : list item)
| Map (l : list (item * item)).

(** [b] is the big-endian number [n]. *)
Definition big_endian (b : list byte) (n : N) : Prop :=
  bytes_ok b /\ fold_left (fun v x => v * 256 + x) b 0 = n.

(** The initial byte: major type in the high three bits; an argument below 24 in the
    low five, otherwise their value says how many bytes follow. *)
Inductive head (major : N) : N -> list byte -> Prop :=
| head_small n : n < 24 -> head major n [major * 32 + n]
| head_bytes i n b :
    i < 4 -> N.of_nat (List.length b) = 2 ^ i -> big_endian b n ->
    head major n (major * 32 + (24 + i) :: b).

Inductive encodes : item -> list byte -> Prop :=
| enc_uint n h : head 0 n h -> encodes (Uint n) h
| enc_bytes b h : head 2 (N.of_nat (List.length b)) h -> encodes (Bytes b) (h ++ b)
| enc_text b h : head 3 (N.of_nat (List.length b)) h -> encodes (Text b) (h ++ b)
| enc_arr l h t : head 4 (N.of_nat (List.length l)) h -> encode_all l t -> encodes (Arr l) (h ++ t)
| enc_map l h t : head 5 (N.of_nat (List.length l)) h ->
    encode_all (flat_map (fun kv => [fst kv; snd kv]) l) t -> encodes (Map l) (h ++ t)
with encode_all : list item -> list byte -> Prop :=
| enc_nil : encode_all [] []
| enc_cons x l b t : encodes x b -> encode_all l t -> encode_all (x :: l) (b ++ t).

(** What the two encodings of an archive's stripe mapping are: serde's derived form of
    the structures of stripe_hashes.rs:23-56. *)
Definition key (s : string) : item := Text (text s).
Definition spec_item (s : spec) : item :=
  match s with
  | SZero => key "Zero"
  | SDigest h => Map [(key "Some", Bytes h)]
  end.
Definition map_item (m : content_map) : item :=
  Map (map (fun e => (Uint (N.of_nat (fst e)), spec_item (snd e))) m).
Definition file_item (f : mapping_file) : item :=
  Map [(key "domain", Arr (map Uint (mf_domain f)));
       (key "version", Uint (mf_version f));
       (key "ciphertext", Arr (map Uint (mf_ciphertext f)));
       (key "plaintext_len", Uint (mf_plaintext_len f));
       (key "hmac_tag", Bytes (mf_tag f))].

(** What metadata.json is: the object serde_json derives from ArchiveMetadata, the keys
    in base64, an i32 level in the model's 32-bit pattern. *)
Definition level_value (n : N) (v : json) : Prop :=
  (n < 2 ^ 31 /\ v = JNum n) \/ (exists p, v = JNeg p /\ 0 < p /\ n + p = 2 ^ 32).
Definition comp_value (a : compression) (v : json) : Prop :=
  match a with
  | CompNone => v = JStr (text "none")
  | CompZstd n => exists l, level_value n l /\ v = JObj [(text "zstd", JObj [(text "level", l)])]
  end.
Definition key_value (k : option (list byte)) (v : json) : Prop :=
  match k with None => v = JNull | Some k => exists t, base64 k t /\ v = JStr t end.
Definition meta_value (m : archive_metadata) (v : json) : Prop :=
  exists k a hk h,
    key_value (am_key m) k /\ comp_value (am_comp m) a /\
    base64 (am_hmac_key m) hk /\ base64 (am_hmac m) h /\
    v = JObj [(text "format_version", JNum (am_version m)); (text "stripe_sector_count", JNum (am_ssc m));
              (text "encryption_key", k); (text "compression", a);
              (text "hmac_key", JStr hk); (text "metadata_hmac", JStr h)].

(** One entry of a stripe mapping: the key fits a u64, a digest is 32 bytes. *)
Definition entry_typed (e : nat * spec) : Prop :=
  N.of_nat (fst e) < 2 ^ 64 /\
  match snd e with SZero => True | SDigest h => List.length h = 32%nat /\ bytes_ok h end.

(** [y] is what the last entry for [x] says. *)
Definition last_entry (x : nat) (es : list (nat * spec)) (y : spec) : Prop :=
  exists before after, es = before ++ (x, y) :: after /\ forall z, ~ In (x, z) after.
