(** Secrets of a configuration.

    Models src/config/v2/secrets.rs, from [resolve_secrets] on; parsing the
    [secrets] table is not modelled.  Strings (names, paths, variables, inline
    data) are byte strings. *)
From Coq Require Import List NArith Bool Arith String Ascii.
From Verif Require Import Base.
Import ListNotations.

(** [str::as_bytes]. *)
Fixpoint bytes_of (s : string) : list byte :=
  match s with
  | EmptyString => []
  | String c r => N_of_ascii c :: bytes_of r
  end.

(** DangerZone, mod.rs:65-80. *)
Record danger_zone := {
  dz_enabled : bool;
  dz_unencrypted_disk : bool;
  dz_inline_secrets : bool;
  dz_regular_file : bool;
  dz_unencrypted_connection : bool;
  dz_env_secrets : bool
}.

(** SecretSource, secrets.rs:18-24; SecretEncoding, 26-32. *)
Inductive secret_source : Type :=
| SFile (path : string)
| SInline (data : string)
| SEnv (var : string).
Inductive encoding : Type := Plaintext | Base64.

(** SecretDef, secrets.rs:47-58; [encrypted_by] is the name referred to. *)
Record secret_def := {
  sd_source : secret_source;
  sd_encoding : encoding;
  sd_kek : option string
}.

(** The outside world.  [w_open path] is [None] when opening or examining the
    file fails; otherwise whether it is a regular file, and what reading it to
    the end gives ([None] for a read error).  [w_getenv] is std::env::var.
    [w_base64] is the base64 decoder and [w_gcm key aad ciphertext] is
    aes256gcm_decrypt (crypt/key.rs:150-180); both are external functions.
    The world does not change while secrets are being resolved. *)
Record world := {
  w_open : string -> option (bool * option (list byte));
  w_getenv : string -> option (list byte);
  w_base64 : list byte -> option (list byte);
  w_gcm : list byte -> list byte -> list byte -> option (list byte)
}.

(** MAX_SECRET_BYTES, secrets.rs:16, and the read limit of load_file_source,
    secrets.rs:239-243: [max_bytes + 1]. *)
Definition MAX_SECRET_BYTES : N := 8192.
Definition FILE_READ_LIMIT : N := (MAX_SECRET_BYTES + 2) / 3 * 4 + 4 + 1.

(** load_file_source, secrets.rs:218-248. *)
Definition load_file_source (w : world) (path : string) (dz : danger_zone) : res (list byte) :=
  match w_open w path with
  | None => Err 1
  | Some (regular, content) =>
      if regular && negb (dz_enabled dz && dz_regular_file dz) then Err 2
      else match content with
           | None => Err 3
           | Some b => Ok (firstn (N.to_nat FILE_READ_LIMIT) b)
           end
  end.

(** load_inline_source, secrets.rs:250-265. *)
Definition load_inline_source (data : string) (encrypted : bool) (dz : danger_zone) : res (list byte) :=
  if negb (encrypted || dz_enabled dz && dz_inline_secrets dz) then Err 4
  else Ok (bytes_of data).

(** load_env_source, secrets.rs:267-284. *)
Definition load_env_source (w : world) (var : string) (dz : danger_zone) : res (list byte) :=
  if negb (dz_enabled dz && dz_env_secrets dz) then Err 5
  else match w_getenv w var with None => Err 6 | Some b => Ok b end.

(** load_source, secrets.rs:183-194. *)
Definition load_source (w : world) (src : secret_source) (encrypted : bool) (dz : danger_zone)
  : res (list byte) :=
  match src with
  | SFile path => load_file_source w path dz
  | SInline data => load_inline_source data encrypted dz
  | SEnv var => load_env_source w var dz
  end.

(** [<[u8]>::trim_ascii_end]: drops trailing tab, line feed, form feed,
    carriage return and space. *)
Definition ascii_ws (b : byte) : bool :=
  (b =? 9)%N || (b =? 10)%N || (b =? 12)%N || (b =? 13)%N || (b =? 32)%N.
Fixpoint drop_ws (l : list byte) : list byte :=
  match l with [] => [] | b :: l' => if ascii_ws b then drop_ws l' else l end.
Definition trim_ascii_end (l : list byte) : list byte := rev (drop_ws (rev l)).

(** decode, secrets.rs:196-205. *)
Definition decode (w : world) (b : list byte) (e : encoding) : res (list byte) :=
  match e with
  | Plaintext => Ok b
  | Base64 => match w_base64 w (trim_ascii_end b) with Some d => Ok d | None => Err 7 end
  end.

(** validate_secret_length, secrets.rs:207-216. *)
Definition validate_secret_length (b : list byte) : res unit :=
  if (N.of_nat (List.length b) <=? MAX_SECRET_BYTES)%N then Ok tt else Err 8.

(** HashMap<String, ResolvedSecret>: pairs with distinct names. *)
Definition resolved_map : Type := list (string * list byte).
Fixpoint lookup {A} (k : string) (l : list (string * A)) : option A :=
  match l with
  | [] => None
  | (k', v) :: l' => if String.eqb k k' then Some v else lookup k l'
  end.

(** maybe_resolve_secret, secrets.rs:153-181. *)
Definition maybe_resolve_secret (w : world) (name : string) (def : secret_def)
    (resolved : resolved_map) (dz : danger_zone) : res (option (list byte)) :=
  match sd_kek def with
  | Some kek =>
      match lookup kek resolved with
      | None => Ok None
      | Some kek_bytes =>
          let! enc := load_source w (sd_source def) true dz in
          let! ct := decode w enc (sd_encoding def) in
          let! _ := validate_secret_length ct in
          match w_gcm w kek_bytes (bytes_of name) ct with
          | Some b => Ok (Some b)
          | None => Err 9
          end
      end
  | None =>
      let! enc := load_source w (sd_source def) false dz in
      let! b := decode w enc (sd_encoding def) in
      let! _ := validate_secret_length b in
      Ok (Some b)
  end.

(** The [for] loop inside the [while], secrets.rs:131-138: one pass over the
    remaining definitions.  Values resolved early in the pass are visible to
    the definitions after them. *)
Fixpoint pass (w : world) (dz : danger_zone) (remaining : list (string * secret_def))
    (resolved : resolved_map) : res (list (string * secret_def) * resolved_map) :=
  match remaining with
  | [] => Ok ([], resolved)
  | (name, def) :: rest =>
      let! r := maybe_resolve_secret w name def resolved dz in
      match r with
      | Some b => pass w dz rest ((name, b) :: resolved)
      | None =>
          let! (todo, resolved') := pass w dz rest resolved in
          Ok ((name, def) :: todo, resolved')
      end
  end.

(** The [while] loop, secrets.rs:128-148.  [passes] bounds the number of
    passes; running out of it is [Panic], which the theorems exclude. *)
Fixpoint loop (w : world) (dz : danger_zone) (passes : nat) (count : nat)
    (remaining : list (string * secret_def)) (resolved : resolved_map) : res resolved_map :=
  if List.length resolved <? count then
    match passes with
    | O => Panic
    | S passes' =>
        let! (todo, resolved') := pass w dz remaining resolved in
        if List.length todo =? List.length remaining then Err 10
        else loop w dz passes' count todo resolved'
    end
  else Ok resolved.

(** resolve_secrets, secrets.rs:110-151.  [defs] is a HashMap given in its
    iteration order, whatever that is.  As many passes as definitions. *)
Definition kek_missing (defs : list (string * secret_def)) (nd : string * secret_def) : bool :=
  match sd_kek (snd nd) with
  | None => false
  | Some kek => match lookup kek defs with Some _ => false | None => true end
  end.
Definition resolve_secrets (w : world) (defs : list (string * secret_def)) (dz : danger_zone)
  : res resolved_map :=
  if existsb (kek_missing defs) defs then Err 11
  else loop w dz (List.length defs) (List.length defs) defs [].

(** get_resolved_secret, secrets.rs:286-298. *)
Definition get_resolved_secret (name : string) (resolved : resolved_map) : res (list byte) :=
  match lookup name resolved with Some b => Ok b | None => Err 12 end.
