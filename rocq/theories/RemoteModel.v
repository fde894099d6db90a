(** Model of the remote stripe protocol: the server's session
    (src/stripe_server/session.rs, prepare.rs), the client
    (src/stripe_server/client.rs) and legacy metadata
    (src/stripe_server/legacy.rs).  A stream is the list of bytes still to be
    read from it; bytes written are returned.  TLS-PSK is not modelled (it
    transports the same bytes). *)
From Coq Require Import List Arith NArith Bool.
Import ListNotations.
From Verif Require Import Base MetadataModel.
Local Open Scope N_scope.

(** stripe_server/mod.rs:17-30. *)
Definition METADATA_CMD : byte := 0.
Definition READ_STRIPE_CMD : byte := 1.
Definition HELLO_CMD : byte := 2.
Definition PROTOCOL_VERSION : N := 1.
Definition STATUS_OK : byte := 0.
Definition STATUS_INVALID_STRIPE : byte := 1.
Definition STATUS_NO_DATA : byte := 2.
Definition STATUS_NOT_FETCHED : byte := 3.
Definition STATUS_INVALID_COMMAND : byte := 254.
Definition STATUS_SERVER_ERROR : byte := 255.

(** std::io::Read::read_exact on a connection that ends after [input]: [None] is
    the error (UnexpectedEof, or a timeout). *)
Definition read_exact (n : nat) (input : list byte) : option (list byte * list byte) :=
  if (n <=? length input)%nat then Some (firstn n input, skipn n input) else None.

Definition flag (f h : N) : bool := negb (N.land h f =? 0).

(** ** Server *)

(** mod.rs:41-46 [StripeServerSession]. *)
Record session := mk_session { ss_meta : metadata; ss_source : bool }.

(** The outcome of the I/O a request needs: reading sectors [start .. start+n) of
    the local device into a fresh buffer of [len] bytes (152-167), and asking the
    stripe source for a stripe into such a buffer (170-176).  [None] is any error
    or timeout. *)
Record io := mk_io {
  io_dev : N -> N -> nat -> option (list byte);
  io_src : N -> nat -> option (list byte) }.

Definition stripe_len (m : metadata) : nat := N.to_nat (MetadataModel.stripe_size m).

(** session.rs:99-104 [stripe_not_fetched], 106-112 [stripe_has_data]; indexing may
    panic. *)
Definition stripe_not_fetched (m : metadata) (i : N) : res bool :=
  let! h := index (md_headers m) (N.to_nat i) in
  Ok (flag FLAG_HAS_SOURCE h && negb (flag FLAG_FETCHED h)).
Definition stripe_has_data (m : metadata) (i : N) : res bool :=
  let! h := index (md_headers m) (N.to_nat i) in
  Ok (flag FLAG_WRITTEN h || (flag FLAG_HAS_SOURCE h && flag FLAG_FETCHED h)).

(** What a request handler wrote, and whether the session goes on. *)
Definition data_reply (m : metadata) (d : option (list byte)) : list byte * bool :=
  match d with
  | None => ([STATUS_SERVER_ERROR], false)          (* notify_server_error, then Err *)
  | Some bytes => (STATUS_OK :: le_bytes 8 (MetadataModel.stripe_size m) ++ bytes, true)
  end.

(** session.rs:114-149 [handle_read_stripe_request], 151-168 [read_stripe] (the
    sector count is cast to u32). *)
Definition handle_read_stripe (ss : session) (o : io) (i : N) : res (list byte * bool) :=
  let m := ss_meta ss in
  if stripe_count m <=? i then Ok ([STATUS_INVALID_STRIPE], true)
  else
    let! nf := stripe_not_fetched m i in
    if nf then
      if ss_source ss then Ok (data_reply m (io_src o i (stripe_len m)))
      else Ok ([STATUS_NOT_FETCHED], true)
    else
      let! hd := stripe_has_data m i in
      if negb hd then Ok ([STATUS_NO_DATA], true)
      else
        let n := stripe_sector_count m mod 2 ^ 32 in
        Ok (data_reply m (io_dev o (i * n) n (stripe_len m))).

(** session.rs:80-97 [handle_metadata_request]. *)
Definition handle_metadata (ss : session) : res (list byte * bool) :=
  let m := ss_meta ss in
  let size := metadata_size m in
  match write_to_buf m (repeat 0 size) with
  | Panic => Panic
  | Err _ => Ok ([], false)
  | Ok buf => Ok (STATUS_OK :: le_bytes 8 (N.of_nat size) ++ buf, true)
  end.

(** session.rs:72-78 [handle_hello_request]. *)
Definition hello_reply : list byte := STATUS_OK :: le_bytes 4 PROTOCOL_VERSION.

(** session.rs:42-70 [handle_single_request]: bytes written, and the input left if
    the session goes on. *)
Definition handle_single_request (ss : session) (o : io) (input : list byte)
  : res (list byte * option (list byte)) :=
  match read_exact 1 input with
  | None => Ok ([], None)
  | Some (op, rest) =>
    let opcode := nth 0 op 0 in
    if opcode =? HELLO_CMD then Ok (hello_reply, Some rest)
    else if opcode =? METADATA_CMD then
      let! r := handle_metadata ss in
      Ok (fst r, if snd r then Some rest else None)
    else if opcode =? READ_STRIPE_CMD then
      match read_exact 8 rest with
      | None => Ok ([], None)
      | Some (idb, rest') =>
        let! r := handle_read_stripe ss o (le_val idb) in
        Ok (fst r, if snd r then Some rest' else None)
      end
    else Ok ([STATUS_INVALID_COMMAND], Some rest)
  end.

(** session.rs:13-40 [handle_requests]: the loop, for as many requests as there are
    I/O outcomes; any error ends the session. *)
Fixpoint handle_requests (ss : session) (os : list io) (input : list byte)
  : res (list byte * option (list byte)) :=
  match os with
  | [] => Ok ([], Some input)
  | o :: os' =>
    let! r := handle_single_request ss o input in
    match snd r with
    | None => Ok (fst r, None)
    | Some rest =>
      let! r' := handle_requests ss os' rest in
      Ok (fst r ++ fst r', snd r')
    end
  end.

(** ** Client *)
Inductive cerr :=
| EIo | EStatus (s : byte) | EProtocol | EMeta | EInvalidStripe | EUnavailable | EMismatch | ENoMetadata.

(** The value or error of a client call, and the bytes it left unread. *)
Inductive cres (A : Type) := COk (a : A) (rest : list byte) | CErr (e : cerr) (rest : list byte) | CPanic.
Arguments COk {A}. Arguments CErr {A}. Arguments CPanic {A}.

Definition cread {A} (n : nat) (input : list byte) (k : list byte -> list byte -> cres A) : cres A :=
  match read_exact n input with
  | None => CErr EIo []
  | Some (b, rest) => k b rest
  end.

(** client.rs:14. *)
Definition MAX_REMOTE_METADATA_SIZE : N := 64 * 1024 * 1024.

(** client.rs:75-110 [hello]. *)
Definition client_hello (input : list byte) : cres unit :=
  cread 1 input (fun st rest =>
    let s := nth 0 st 0 in
    if s =? STATUS_INVALID_COMMAND then CErr EProtocol rest
    else if negb (s =? STATUS_OK) then CErr (EStatus s) rest
    else cread 4 rest (fun v rest' =>
      if le_val v =? PROTOCOL_VERSION then COk tt rest' else CErr EProtocol rest')).

(** client.rs:25-72 [fetch_metadata].  (usize::try_from cannot fail on 64-bit
    machines.) *)
Definition client_metadata (input : list byte) : cres metadata :=
  cread 1 input (fun st rest =>
    let s := nth 0 st 0 in
    if negb (s =? STATUS_OK) then CErr (EStatus s) rest
    else cread 8 rest (fun sz rest' =>
      let n := le_val sz in
      if n <? 512 then CErr EProtocol rest'
      else if MAX_REMOTE_METADATA_SIZE <? n then CErr EProtocol rest'
      else cread (N.to_nat n) rest' (fun b rest'' =>
        match from_bytes b with
        | Ok m => COk m rest''
        | Err _ => CErr EMeta rest''
        | Panic => CPanic
        end))).

(** client.rs:126-183 [fetch_stripe], when metadata [m] was fetched before (without
    metadata it fails without sending anything, 130-133). *)
Definition client_fetch_stripe (md : option metadata) (input : list byte) : cres (list byte) :=
  match md with
  | None => CErr ENoMetadata input
  | Some m =>
    cread 1 input (fun st rest =>
      let s := nth 0 st 0 in
      if s =? STATUS_OK then
        cread 8 rest (fun sz rest' =>
          if negb (le_val sz =? MetadataModel.stripe_size m) then CErr EMismatch rest'
          else cread (N.to_nat (le_val sz)) rest' (fun d rest'' => COk d rest''))
      else if s =? STATUS_INVALID_STRIPE then CErr EInvalidStripe rest
      else if (s =? STATUS_NO_DATA) || (s =? STATUS_NOT_FETCHED) then CErr EUnavailable rest
      else if s =? STATUS_SERVER_ERROR then CErr (EStatus STATUS_SERVER_ERROR) rest
      else CErr (EStatus s) rest)
  end.

(** The bytes a client sends: client.rs:29-30, 79-80, 136-142. *)
Inductive request := RHello | RMetadata | RRead (i : N).
Definition encode_request (q : request) : list byte :=
  match q with
  | RHello => [HELLO_CMD]
  | RMetadata => [METADATA_CMD]
  | RRead i => READ_STRIPE_CMD :: le_bytes 8 i
  end.

(** client.rs:230-234, the handshake of [connect_to_stripe_server]: hello, then
    metadata. *)
Definition client_connect (input : list byte) : cres metadata :=
  match client_hello input with
  | COk _ rest => client_metadata rest
  | CErr e rest => CErr e rest
  | CPanic => CPanic
  end.

(** ** prepare.rs *)

(** prepare.rs:16-22 [mark_no_source_stripes_written]. *)
Definition mark_no_source_stripes_written (m : metadata) : metadata :=
  mk_metadata (md_magic m) (md_version_major m) (md_version_minor m) (md_shift m)
    (map (fun h => if N.land h FLAG_HAS_SOURCE =? 0 then N.lor h FLAG_WRITTEN else h) (md_headers m)).

(** prepare.rs:24-75 [prepare_stripe_server]: the session state every connection
    starts with.  [file] is the loaded metadata, if a metadata path is configured;
    [sectors] the size of the data device; building the source may fail later. *)
Definition DEFAULT_SHIFT : byte := 11.
Definition prepare_stripe_server (file : option metadata) (track_written source_configured : bool)
  (sectors : nat) : res session :=
  match file with
  | Some m =>
    if negb (has_fetched_all_stripes m) && negb source_configured then Err 1
    else Ok (mk_session (if track_written then m else mark_no_source_stripes_written m) true)
  | None =>
    let n := div_ceil sectors (Nat.pow 2 (N.to_nat DEFAULT_SHIFT)) in
    let m := metadata_new DEFAULT_SHIFT n n in
    Ok (mk_session (mk_metadata (md_magic m) (md_version_major m) (md_version_minor m) (md_shift m)
          (map (fun h => N.lor h (N.lor FLAG_WRITTEN FLAG_FETCHED)) (md_headers m))) false)
  end.

(** ** legacy.rs *)

(** legacy.rs:71-75 [is_legacy_v0_2]. *)
Definition is_legacy_v0_2 (buf : list byte) : bool :=
  (11 <=? length buf)%nat && bytes_eqb (firstn 9 buf) UBI_MAGIC &&
  (nth 9 buf 0 =? 0) && (nth 10 buf 0 =? 0).

Definition MAX_LEGACY_SHIFT : N := 16.

(** legacy.rs:116-150 [translate_v0_2_metadata]. *)
Definition translate_v0_2_metadata (buf : list byte) (data_sector_count : N) : res metadata :=
  if (length buf <? 512)%nat then Err 1
  else
    let! shift := index buf 13 in
    if MAX_LEGACY_SHIFT <? shift then Err 2
    else
      let n := (data_sector_count + (2 ^ shift - 1)) / 2 ^ shift in
      if N.of_nat (length buf - 512) <? n then Err 3
      else
        let n := N.to_nat n in
        let! hs := slice buf 512 (512 + n) in
        let m := metadata_new shift n 0 in
        Ok (mk_metadata (md_magic m) (md_version_major m) (md_version_minor m) (md_shift m)
              (map (fun h => if h =? 0 then FLAG_HAS_SOURCE else FLAG_WRITTEN) hs)).

(** legacy.rs:50-69 [load_metadata_for_serving], on the bytes of the metadata
    device. *)
Definition load_metadata_for_serving (buf : list byte) (data_sector_count : N) : res metadata :=
  if is_legacy_v0_2 buf then translate_v0_2_metadata buf data_sector_count else from_bytes buf.

(** ** What a client derives from the server's headers *)

(** stripe_source/remote.rs:312-321 [has_stripe]. *)
Definition remote_has_stripe (hs : list byte) (i : nat) : res bool :=
  if (length hs <=? i)%nat then Ok false
  else
    let! h := index hs i in
    Ok (flag FLAG_WRITTEN h || flag FLAG_HAS_SOURCE h).

(** remote.rs:180-194: the stripes up to the last one with data, times the stripe
    size; a product that does not fit 64 bits is an error. *)
Fixpoint rposition {A} (p : A -> bool) (l : list A) : option nat :=
  match l with
  | [] => None
  | x :: l' => match rposition p l' with
               | Some k => Some (S k)
               | None => if p x then Some O else None
               end
  end.
Definition remote_sector_count (m : metadata) : res N :=
  let n := match rposition (fun h => negb (N.land h (N.lor FLAG_WRITTEN FLAG_HAS_SOURCE) =? 0)) (md_headers m) with
           | Some k => N.of_nat k + 1
           | None => 0
           end in
  if n * stripe_sector_count m <? 2 ^ 64 then Ok (n * stripe_sector_count m) else Err 1.

(** Legacy volumes are served with [BlockDeviceStripeSource] over the image:
    src/stripe_source/bdev.rs:22-61 [request]: a stripe that starts at or behind the
    end of the image is an error (see /repo/src/stripe_source/bdev.rs). *)
Definition bdev_source_request (image_sectors stripe_sectors i : N) : res N :=
  let start := i * stripe_sectors in
  if image_sectors <=? start then Err 1
  else Ok (N.min stripe_sectors (image_sectors - start)).

(** The stripe source of a legacy server, session.rs:170-176 with
    src/stripe_source/bdev.rs:22-43: the sectors asked for are read into the front
    of a fresh (zeroed) buffer of [len] bytes; a read that is not inside the image
    or does not fit the buffer fails. *)
Definition image_source (img : list byte) (stripe_sectors i : N) (len : nat) : option (list byte) :=
  match bdev_source_request (N.of_nat (length img) / 512) stripe_sectors i with
  | Ok n =>
      match slice img (N.to_nat (512 * (i * stripe_sectors))) (N.to_nat (512 * (i * stripe_sectors + n))) with
      | Ok d => if (length d <=? len)%nat then Some (d ++ repeat 0 (len - length d)) else None
      | _ => None
      end
  | _ => None
  end.
