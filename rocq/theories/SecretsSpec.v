(** What each secret's value is, and which sources may be used: stated without
    reference to the order in which secrets are resolved. *)
From Coq Require Import List NArith Bool String.
From Verif Require Import Base SecretsModel.
Import ListNotations.

(** The danger zone lets a source be used.  [protected] means the secret is
    encrypted by another one. *)
Inductive permitted (w : world) (dz : danger_zone) : secret_source -> bool -> Prop :=
| p_special_file path content protected :
    w_open w path = Some (false, content) -> permitted w dz (SFile path) protected
| p_regular_file path content protected :
    w_open w path = Some (true, content) ->
    dz_enabled dz = true -> dz_regular_file dz = true -> permitted w dz (SFile path) protected
| p_inline_protected data : permitted w dz (SInline data) true
| p_inline data :
    dz_enabled dz = true -> dz_inline_secrets dz = true -> permitted w dz (SInline data) false
| p_env var protected :
    dz_enabled dz = true -> dz_env_secrets dz = true -> permitted w dz (SEnv var) protected.

(** What a source holds: a file's first 10929 bytes, the inline text, the
    variable's value. *)
Inductive holds (w : world) : secret_source -> list byte -> Prop :=
| h_file path regular b : w_open w path = Some (regular, Some b) ->
    holds w (SFile path) (firstn (N.to_nat 10929) b)
| h_inline data : holds w (SInline data) (bytes_of data)
| h_env var b : w_getenv w var = Some b -> holds w (SEnv var) b.

(** The bytes a source stands for: at most 8192 of them. *)
Inductive stands_for (w : world) (def : secret_def) : list byte -> Prop :=
| sf_plain raw : holds w (sd_source def) raw -> sd_encoding def = Plaintext ->
    (N.of_nat (List.length raw) <= 8192)%N -> stands_for w def raw
| sf_base64 raw text white b : holds w (sd_source def) raw -> sd_encoding def = Base64 ->
    raw = text ++ white -> Forall (fun c => ascii_ws c = true) white ->
    (forall t' c, text = t' ++ [c] -> ascii_ws c = false) ->
    w_base64 w text = Some b ->
    (N.of_nat (List.length b) <= 8192)%N -> stands_for w def b.

(** [value_of w dz defs name b]: the secret [name] is defined, its chain of
    key-encryption keys is finite, and [b] is its value.  An encrypted secret
    is decrypted with the value of its key, bound to its own name. *)
Inductive value_of (w : world) (dz : danger_zone) (defs : list (string * secret_def))
  : string -> list byte -> Prop :=
| vo_plain name def b :
    In (name, def) defs -> sd_kek def = None ->
    permitted w dz (sd_source def) false -> stands_for w def b ->
    value_of w dz defs name b
| vo_encrypted name def kek kek_bytes ct b :
    In (name, def) defs -> sd_kek def = Some kek ->
    value_of w dz defs kek kek_bytes ->
    permitted w dz (sd_source def) true -> stands_for w def ct ->
    w_gcm w kek_bytes (bytes_of name) ct = Some b ->
    value_of w dz defs name b.

(** [under defs a b]: the secret [a] is encrypted, through one or more steps,
    under [b]. *)
Inductive under (defs : list (string * secret_def)) : string -> string -> Prop :=
| under_one a def b : In (a, def) defs -> sd_kek def = Some b -> under defs a b
| under_more a def k b : In (a, def) defs -> sd_kek def = Some k -> under defs k b ->
    under defs a b.
