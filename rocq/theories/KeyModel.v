(** Model of src/crypt/key.rs (key-encryption cipher) and of the key handling of
    src/crypt/block.rs. *)
From Coq Require Import List Arith NArith Bool.
Import ListNotations.
From Verif Require Import Base.

(** crypt/key.rs:10-16 [CipherMethod] and 18-28 [KeyEncryptionCipher]. *)
Inductive cipher_method := MNone | MAes256Gcm.
Record kek := mk_kek { k_method : cipher_method; k_key : option (list byte); k_auth : option (list byte) }.

Definition GCM_TAG_SIZE := 16%nat.     (* crypt/key.rs:43 *)
Definition GCM_NONCE_SIZE := 12%nat.   (* crypt/key.rs:45 *)

Definition E_NO_KEY := 1%N.
Definition E_NO_AUTH := 2%N.
Definition E_KEY_LENGTH := 3%N.
Definition E_TOO_SHORT := 4%N.
Definition E_OPEN := 5%N.
Definition E_UTF8 := 6%N.

(** The AES-256-GCM primitive of the aes-gcm crate: [seal key nonce aad plain] is
    ciphertext followed by the tag, [open] returns [None] when authentication
    fails. *)
Section Kek.
Variable seal : list byte -> list byte -> list byte -> list byte -> list byte.
Variable open_ : list byte -> list byte -> list byte -> list byte -> option (list byte).

(** key.rs:141-147 [new_cipher]: [Aes256Gcm::new_from_slice] accepts exactly 32
    bytes. *)
Definition new_cipher (key : list byte) : res unit :=
  if Nat.eqb (length key) 32 then Ok tt else Err E_KEY_LENGTH.

(** key.rs:150-178 [aes256gcm_decrypt]. *)
Definition aes256gcm_decrypt (key aad ct : list byte) : res (list byte) :=
  let! _ := new_cipher key in
  if length ct <? GCM_NONCE_SIZE + GCM_TAG_SIZE then Err E_TOO_SHORT
  else
    let! nonce := slice ct 0 GCM_NONCE_SIZE in
    let! data := slice ct GCM_NONCE_SIZE (length ct) in
    match open_ key nonce aad data with Some p => Ok p | None => Err E_OPEN end.

(** key.rs:182-205 [aes256gcm_encrypt]; the random nonce is a parameter.  The
    crate's encrypt fails only for inputs near 2^36 bytes: not modelled. *)
Definition aes256gcm_encrypt (nonce key aad plain : list byte) : res (list byte) :=
  let! _ := new_cipher key in
  Ok (nonce ++ seal key nonce aad plain).

(** key.rs:49-61 [init_context]. *)
Definition init_context (k : kek) : res (list byte * list byte) :=
  match k_key k with
  | None => Err E_NO_KEY
  | Some key => match k_auth k with None => Err E_NO_AUTH | Some auth => Ok (key, auth) end
  end.

(** key.rs:207-213 and block.rs:164-170 [ensure_32_bytes]. *)
Definition ensure_32_bytes (d : list byte) : res (list byte) :=
  if Nat.eqb (length d) 32 then Ok d else Err E_KEY_LENGTH.

(** key.rs:120-128 [encrypt_key_data]. *)
Definition encrypt_key_data (nonce : list byte) (k : kek) (plain : list byte) : res (list byte) :=
  match k_method k with
  | MNone => Ok plain
  | MAes256Gcm => let! c := init_context k in aes256gcm_encrypt nonce (fst c) (snd c) plain
  end.

(** key.rs:130-138 [decrypt_key_data]; key.rs:94-102 [decrypt_psk_secret] is the
    same function. *)
Definition decrypt_key_data (k : kek) (ct : list byte) : res (list byte) :=
  match k_method k with
  | MNone => Ok ct
  | MAes256Gcm => let! c := init_context k in aes256gcm_decrypt (fst c) (snd c) ct
  end.

(** key.rs:104-118 [decrypt_aws_credential]; [utf8] is the UTF-8 check. *)
Definition decrypt_aws_credential (utf8 : list byte -> bool) (k : kek) (ct : list byte) : res (list byte) :=
  let! d := decrypt_key_data k ct in
  if utf8 d then Ok d else Err E_UTF8.

(** key.rs:63-75 [encrypt_xts_keys]. *)
Definition encrypt_xts_keys (n1 n2 : list byte) (k : kek) (key1 key2 : list byte)
  : res (list byte * list byte) :=
  match k_method k with
  | MNone => Ok (key1, key2)
  | MAes256Gcm =>
    let! c := init_context k in
    let! k1 := aes256gcm_encrypt n1 (fst c) (snd c) key1 in
    let! k2 := aes256gcm_encrypt n2 (fst c) (snd c) key2 in
    Ok (k1, k2)
  end.

(** key.rs:77-92 [decrypt_xts_keys]. *)
Definition decrypt_xts_keys (k : kek) (c1 c2 : list byte) : res (list byte * list byte) :=
  match k_method k with
  | MNone =>
    let! k1 := ensure_32_bytes c1 in
    let! k2 := ensure_32_bytes c2 in
    Ok (k1, k2)
  | MAes256Gcm =>
    let! c := init_context k in
    let! p1 := aes256gcm_decrypt (fst c) (snd c) c1 in
    let! p2 := aes256gcm_decrypt (fst c) (snd c) c2 in
    let! k1 := ensure_32_bytes p1 in
    let! k2 := ensure_32_bytes p2 in
    Ok (k1, k2)
  end.

(** block.rs:23-31 [XtsBlockCipher::new]: the pair (key1, key2). *)
Definition xts_new (key1 key2 : list byte) : res (list byte * list byte) :=
  let! a := ensure_32_bytes key1 in
  let! b := ensure_32_bytes key2 in
  Ok (a, b).

(** block.rs:71-76 [encrypted_key]. *)
Definition encrypted_key (nonce : list byte) (k : kek) (keys : list byte * list byte) : res (list byte) :=
  encrypt_key_data nonce k (fst keys ++ snd keys).

(** block.rs:78-100 [from_combined_key]. *)
Definition from_combined_key (d : list byte) : res (list byte * list byte) :=
  if Nat.eqb (length d) 64 then Ok (firstn 32 d, skipn 32 d) else Err E_KEY_LENGTH.

(** block.rs:46-49 [from_encrypted_key]. *)
Definition from_encrypted_key (k : kek) (ct : list byte) : res (list byte * list byte) :=
  let! d := decrypt_key_data k ct in
  from_combined_key d.
End Kek.
