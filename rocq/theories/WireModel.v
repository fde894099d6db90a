(** The formats archives are written in, byte by byte: base64 as the engine STANDARD
    writes it (src/crypt/key_serialization.rs), the JSON of metadata.json
    (src/archive/mod.rs:70-110, archiver.rs:287, stripe_source/archive.rs:70-76) and the
    CBOR of stripe-mapping (src/archive/stripe_hashes.rs:23-41, 142-160,
    src/archive/bytes32.rs). *)
From Coq Require Import String List Arith NArith Bool.
From Verif Require Import Base KeyModel ArchiveModel RpcModel RpcSpec.
Import ListNotations.
Local Open Scope N_scope.

Notation "'let?' x ':=' e 'in' k" := (match e with Some x => k | None => None end)
  (at level 200, x pattern, e at level 100, k at level 200, right associativity).

(** ** Base64 (RFC 4648, with padding) *)

(** A sextet as a character. *)
Definition b64_char (v : N) : byte :=
  if v <? 26 then 65 + v
  else if v <? 52 then 97 + (v - 26)
  else if v <? 62 then 48 + (v - 52)
  else if v =? 62 then 43 else 47.

Definition b64_value (c : byte) : option N :=
  if (65 <=? c) && (c <=? 90) then Some (c - 65)
  else if (97 <=? c) && (c <=? 122) then Some (c - 97 + 26)
  else if (48 <=? c) && (c <=? 57) then Some (c - 48 + 52)
  else if c =? 43 then Some 62
  else if c =? 47 then Some 63
  else None.

Definition PAD : byte := 61.

(** key_serialization.rs:22, 42: STANDARD.encode. *)
Fixpoint b64_encode (l : list byte) : list byte :=
  match l with
  | a :: b :: c :: r =>
      b64_char (a / 4) :: b64_char (a mod 4 * 16 + b / 16)
      :: b64_char (b mod 16 * 4 + c / 64) :: b64_char (c mod 64) :: b64_encode r
  | [a; b] => [b64_char (a / 4); b64_char (a mod 4 * 16 + b / 16); b64_char (b mod 16 * 4); PAD]
  | [a] => [b64_char (a / 4); b64_char (a mod 4 * 16); PAD; PAD]
  | [] => []
  end.

(** key_serialization.rs:11, 35 and the secrets: STANDARD.decode.  The engine
    requires the padding and refuses bits set after the last byte. *)
Fixpoint b64_decode (l : list byte) : option (list byte) :=
  match l with
  | [] => Some []
  | c1 :: c2 :: c3 :: c4 :: r =>
      let? w := b64_value c1 in
      let? x := b64_value c2 in
      if c3 =? PAD then
        if (c4 =? PAD) && (x mod 16 =? 0) && match r with [] => true | _ => false end
        then Some [w * 4 + x / 16] else None
      else
        let? y := b64_value c3 in
        if c4 =? PAD then
          if (y mod 4 =? 0) && match r with [] => true | _ => false end
          then Some [w * 4 + x / 16; x mod 16 * 16 + y / 4] else None
        else
          let? z := b64_value c4 in
          let? t := b64_decode r in
          Some (w * 4 + x / 16 :: x mod 16 * 16 + y / 4 :: y mod 4 * 64 + z :: t)
  | _ => None
  end.

(** ** metadata.json *)

Definition N32 : N := 2 ^ 32.
Definition N64 : N := 2 ^ 64.

(** An i32; the model keeps it as the 32-bit pattern. *)
Definition json_i32 (n : N) : json := if n <? 2 ^ 31 then JNum n else JNeg (N32 - n).
Definition read_i32 (v : json) : option N :=
  match v with
  | JNum n => if n <? 2 ^ 31 then Some n else None
  | JNeg n => if (1 <=? n) && (n <=? 2 ^ 31) then Some (N32 - n) else None
  | _ => None
  end.

(** archive/mod.rs:72-80 [ArchiveCompressionAlgorithm], rename_all = "snake_case". *)
Definition json_comp (a : compression) : json :=
  match a with
  | CompNone => JStr (text "none")
  | CompZstd level => JObj [field "zstd" (JObj [field "level" (json_i32 level)])]
  end.

(** key_serialization.rs:16-27 [encode_optional_key]. *)
Definition json_opt_key (k : option (list byte)) : json :=
  match k with None => JNull | Some k => JStr (b64_encode k) end.

(** serde_json::to_string of [ArchiveMetadata]. *)
Definition meta_json (m : archive_metadata) : list byte :=
  print (JObj [
    field "format_version" (JNum (am_version m));
    field "stripe_sector_count" (JNum (am_ssc m));
    field "encryption_key" (json_opt_key (am_key m));
    field "compression" (json_comp (am_comp m));
    field "hmac_key" (JStr (b64_encode (am_hmac_key m)));
    field "metadata_hmac" (JStr (b64_encode (am_hmac m)))]).

(** The field [k] of an object: serde refuses a field that is there twice, and
    ignores the ones it does not know.  [Some None]: missing. *)
Definition get (k : string) (l : list (list byte * json)) : option (option json) :=
  match filter (fun kv => bytes_eqb (fst kv) (text k)) l with
  | [] => Some None
  | [kv] => Some (Some (snd kv))
  | _ => None
  end.

Definition read_uint (bound : N) (v : option json) : option N :=
  match v with Some (JNum n) => if n <? bound then Some n else None | _ => None end.

(** key_serialization.rs:6-13 [decode_optional_key], with #[serde(default)].  A Vec is
    shorter than 2^64 bytes. *)
Definition read_opt_key (v : option json) : option (option (list byte)) :=
  match v with
  | None | Some JNull => Some None
  | Some (JStr s) =>
      let? k := b64_decode s in
      if N.of_nat (List.length k) <? N64 then Some (Some k) else None
  | _ => None
  end.

(** key_serialization.rs:29-36 [decode_key], with #[serde(default)]. *)
Definition read_key (v : option json) : option (list byte) :=
  match v with None => Some [] | Some (JStr s) => b64_decode s | _ => None end.

Definition read_comp (v : option json) : option compression :=
  match v with
  | None => Some CompNone
  | Some (JStr s) => if bytes_eqb s (text "none") then Some CompNone else None
  | Some (JObj [(k, JObj l)]) =>
      if bytes_eqb k (text "zstd") then
        match get "level" l with
        | Some (Some v) => let? level := read_i32 v in Some (CompZstd level)
        | _ => None
        end
      else None
  | _ => None
  end.

(** serde_json::from_slice.  Simplifications: no white space between the tokens; the
    reader of [RpcSpec] for the rest, which is laxer than serde_json about leading
    zeros and unknown escapes. *)
Definition meta_json_dec (b : list byte) : option archive_metadata :=
  match decode b with
  | Some (JObj l) =>
      let? v := get "format_version" l in let? v := read_uint N32 v in
      let? s := get "stripe_sector_count" l in let? s := read_uint N64 s in
      let? k := get "encryption_key" l in let? k := read_opt_key k in
      let? a := get "compression" l in let? a := read_comp a in
      let? hk := get "hmac_key" l in let? hk := read_key hk in
      let? h := get "metadata_hmac" l in let? h := read_key h in
      Some (mk_ameta v s k a hk h)
  | _ => None
  end.

(** ** CBOR (RFC 8949) as ciborium writes it *)

Definition be_bytes (n : nat) (x : N) : list byte := rev (le_bytes n x).
Definition be_val (l : list byte) : N := le_val (rev l).

(** The head of an item: major type and argument, in the shortest form. *)
Definition cbor_head (major n : N) : list byte :=
  if n <? 24 then [major * 32 + n]
  else if n <? 256 then major * 32 + 24 :: be_bytes 1 n
  else if n <? 65536 then major * 32 + 25 :: be_bytes 2 n
  else if n <? N32 then major * 32 + 26 :: be_bytes 4 n
  else major * 32 + 27 :: be_bytes 8 n.

Definition take (n : N) (l : list byte) : option (list byte * list byte) :=
  if N.of_nat (List.length l) <? n then None
  else Some (firstn (N.to_nat n) l, skipn (N.to_nat n) l).

(** Reading accepts longer forms too; indefinite lengths (31) are refused here. *)
Definition read_head (l : list byte) : option (N * N * list byte) :=
  match l with
  | [] => None
  | b :: r =>
      let arg k := let? (a, r') := take k r in Some (b / 32, be_val a, r') in
      let i := b mod 32 in
      if i <? 24 then Some (b / 32, i, r)
      else if i =? 24 then arg 1
      else if i =? 25 then arg 2
      else if i =? 26 then arg 4
      else if i =? 27 then arg 8
      else None
  end.

(** An item of the given major type. *)
Definition read_major (major : N) (l : list byte) : option (N * list byte) :=
  let? (m, n, r) := read_head l in
  if m =? major then Some (n, r) else None.

Definition cbor_bytes (major : N) (d : list byte) : list byte :=
  cbor_head major (N.of_nat (List.length d)) ++ d.
Definition read_bytes (major : N) (l : list byte) : option (list byte * list byte) :=
  let? (n, r) := read_major major l in take n r.

(** A text that must be there (a field name, a variant name). *)
Definition cbor_text (s : string) : list byte := cbor_bytes 3 (text s).
Definition read_name (s : string) (l : list byte) : option (list byte) :=
  let? (t, r) := read_bytes 3 l in
  if bytes_eqb t (text s) then Some r else None.

Definition read_below (bound : N) (l : list byte) : option (N * list byte) :=
  let? (n, r) := read_major 0 l in if n <? bound then Some (n, r) else None.

(** A Vec<u8> without serde_bytes: an array of numbers. *)
Definition cbor_u8s (d : list byte) : list byte :=
  cbor_head 4 (N.of_nat (List.length d)) ++ flat_map (cbor_head 0) d.

Section Items.
  Context {A : Type} (rd : list byte -> option (A * list byte)).
  Fixpoint read_items (n : nat) (l : list byte) : option (list A * list byte) :=
    match n with
    | O => Some ([], l)
    | S n' =>
        let? (x, r) := rd l in
        let? (xs, r') := read_items n' r in Some (x :: xs, r')
    end.
End Items.

(** A length in the head that exceeds what is there ends in an error.  The argument of
    a head is a u64. *)
Definition read_u8s (l : list byte) : option (list byte * list byte) :=
  let? (n, r) := read_major 4 l in
  if (N64 <=? n) || (N.of_nat (List.length r) <? n) then None
  else read_items (read_below 256) (N.to_nat n) r.

(** stripe_hashes.rs:36-41 with bytes32.rs: a unit variant is its name, a newtype
    variant a map of one entry. *)
Definition cbor_spec (s : spec) : list byte :=
  match s with
  | SZero => cbor_text "Zero"
  | SDigest h => cbor_head 5 1 ++ cbor_text "Some" ++ cbor_bytes 2 h
  end.

(** bytes32.rs:24-33: exactly 32 bytes. *)
Definition read_bytes32 (l : list byte) : option (list byte * list byte) :=
  let? (h, r) := read_bytes 2 l in
  if N.of_nat (List.length h) =? 32 then Some (h, r) else None.

Definition read_spec (l : list byte) : option (spec * list byte) :=
  let? (m, n, r) := read_head l in
  if m =? 5 then
    if n =? 1 then
      let? r := read_name "Some" r in
      let? (h, r) := read_bytes32 r in Some (SDigest h, r)
    else None
  else let? r := read_name "Zero" l in Some (SZero, r).

Definition cbor_entry (e : nat * spec) : list byte := cbor_head 0 (N.of_nat (fst e)) ++ cbor_spec (snd e).
Definition read_entry (l : list byte) : option ((nat * spec) * list byte) :=
  let? (k, r) := read_below N64 l in
  let? (s, r) := read_spec r in Some ((N.to_nat k, s), r).

(** stripe_hashes.rs:53-56: the BTreeMap, in the order of its keys. *)
Definition cbor_of_map (m : content_map) : list byte :=
  cbor_head 5 (N.of_nat (List.length m)) ++ flat_map cbor_entry m.

(** BTreeMap::insert on the sorted list. *)
Fixpoint insert (k : nat) (s : spec) (m : content_map) : content_map :=
  match m with
  | [] => [(k, s)]
  | (k', s') :: m' =>
      if (k <? k')%nat then (k, s) :: m
      else if (k =? k')%nat then (k, s) :: m'
      else (k', s') :: insert k s m'
  end.

(** stripe_hashes.rs:133-134.  from_reader does not look at what follows the item. *)
Definition map_of_cbor (l : list byte) : option content_map :=
  let? (n, r) := read_major 5 l in
  if N.of_nat (List.length r) <? n then None
  else
    let? (es, _) := read_items read_entry (N.to_nat n) r in
    Some (fold_left (fun m e => insert (fst e) (snd e) m) es []).

(** stripe_hashes.rs:23-34 [StripeMappingFile]: a map from field names. *)
Definition cbor_of_file (f : mapping_file) : list byte :=
  cbor_head 5 5
  ++ cbor_text "domain" ++ cbor_u8s (mf_domain f)
  ++ cbor_text "version" ++ cbor_head 0 (mf_version f)
  ++ cbor_text "ciphertext" ++ cbor_u8s (mf_ciphertext f)
  ++ cbor_text "plaintext_len" ++ cbor_head 0 (mf_plaintext_len f)
  ++ cbor_text "hmac_tag" ++ cbor_bytes 2 (mf_tag f).

(** Simplification: the fields in the order in which they are written. *)
Definition file_of_cbor (l : list byte) : option mapping_file :=
  let? (n, r) := read_major 5 l in
  if negb (n =? 5) then None
  else
    let? r := read_name "domain" r in let? (d, r) := read_u8s r in
    let? r := read_name "version" r in let? (v, r) := read_below N32 r in
    let? r := read_name "ciphertext" r in let? (ct, r) := read_u8s r in
    let? r := read_name "plaintext_len" r in let? (p, r) := read_below N64 r in
    let? r := read_name "hmac_tag" r in let? (t, _) := read_bytes32 r in
    Some (mk_mapping d v ct p t).

(** The primitives with these formats in place of the abstract codecs. *)
Definition with_wire (P : prims) : prims :=
  mk_prims (zenc P) (zdec P) (xenc P) (xdec P) (sha P) (mac P) cbor_of_map map_of_cbor
    cbor_of_file file_of_cbor meta_json meta_json_dec (seal P) (open_ P).
