(** Specification vocabulary for the remote stripe protocol (C31, C32, C34): what
    a stripe's header byte means, the answers a server may give and the bytes that
    stand for them on the wire. *)
From Coq Require Import List Arith NArith Bool.
Import ListNotations.
From Verif Require Import Base MetadataModel MetadataSpec RemoteModel.
Local Open Scope N_scope.

(** The bits of a stripe's header byte. *)
Definition fetched (h : byte) : bool := N.testbit h 0.
Definition written (h : byte) : bool := N.testbit h 1.
Definition has_source (h : byte) : bool := N.testbit h 2.

(** The stripe's data is still in the source only. *)
Definition in_source_only (h : byte) : bool := has_source h && negb (fetched h).
(** The stripe's data is on the local device. *)
Definition data_local (h : byte) : bool := negb (in_source_only h) && (written h || has_source h).

Inductive answer :=
| AHello
| AMetadata (shift : N) (hs : list byte)
| AData (d : list byte)
| AInvalid | ANoData | ANotFetched | ABadCommand | AFailed.

(** The answer to "read stripe [i]" on a device with stripes of [2^shift] sectors
    and headers [hs]; [src] says whether the server has a stripe source, and [o]
    how its reads end. *)
Inductive stripe_answer (shift : N) (hs : list byte) (src : bool) (o : io) (i : N) : answer -> Prop :=
| sa_invalid : N.of_nat (length hs) <= i -> stripe_answer shift hs src o i AInvalid
| sa_not_fetched h : nth_error hs (N.to_nat i) = Some h -> in_source_only h = true -> src = false ->
    stripe_answer shift hs src o i ANotFetched
| sa_source h d : nth_error hs (N.to_nat i) = Some h -> in_source_only h = true -> src = true ->
    io_src o i (N.to_nat (512 * 2 ^ shift)) = Some d -> stripe_answer shift hs src o i (AData d)
| sa_source_failed h : nth_error hs (N.to_nat i) = Some h -> in_source_only h = true -> src = true ->
    io_src o i (N.to_nat (512 * 2 ^ shift)) = None -> stripe_answer shift hs src o i AFailed
| sa_no_data h : nth_error hs (N.to_nat i) = Some h -> written h = false -> has_source h = false ->
    stripe_answer shift hs src o i ANoData
| sa_local h d : nth_error hs (N.to_nat i) = Some h -> data_local h = true ->
    io_dev o (i * 2 ^ shift) (2 ^ shift) (N.to_nat (512 * 2 ^ shift)) = Some d ->
    stripe_answer shift hs src o i (AData d)
| sa_local_failed h : nth_error hs (N.to_nat i) = Some h -> data_local h = true ->
    io_dev o (i * 2 ^ shift) (2 ^ shift) (N.to_nat (512 * 2 ^ shift)) = None ->
    stripe_answer shift hs src o i AFailed.

(** The right answer to each request. *)
Definition right_answer (shift : N) (hs : list byte) (src : bool) (o : io) (q : request) (a : answer) : Prop :=
  match q with
  | RHello => a = AHello
  | RMetadata => a = AMetadata shift hs
  | RRead i => i < 2 ^ 64 /\ stripe_answer shift hs src o i a
  end.

(** [wire a bytes]: [bytes] is how answer [a] is sent. *)
Definition wire (a : answer) (bytes : list byte) : Prop :=
  match a with
  | AHello => bytes = [0; 1; 0; 0; 0]
  | AMetadata shift hs => exists image,
      bytes = 0 :: le_bytes 8 (N.of_nat (length image)) ++ image /\
      length image = (512 * (1 + (length hs + 507) / 508))%nat /\
      from_bytes image = Ok (current_metadata shift hs)
  | AData d => bytes = 0 :: le_bytes 8 (N.of_nat (length d)) ++ d
  | AInvalid => bytes = [1]
  | ANoData => bytes = [2]
  | ANotFetched => bytes = [3]
  | ABadCommand => bytes = [254]
  | AFailed => bytes = [255]
  end.

(** What the caller of the client sees for each answer. *)
Inductive seen :=
| SHello | SMetadata (m : metadata) | SData (d : list byte) | SError (e : cerr) | SPanic.

Definition seen_of (a : answer) : seen :=
  match a with
  | AHello => SHello
  | AMetadata shift hs => SMetadata (current_metadata shift hs)
  | AData d => SData d
  | AInvalid => SError EInvalidStripe
  | ANoData | ANotFetched => SError EUnavailable
  | ABadCommand => SError (EStatus 254)
  | AFailed => SError (EStatus 255)
  end.

(** A client that has fetched the metadata, using [md]: the answers to a list of
    requests read one after the other from a stream, and what is left of it. *)
Definition client_one (md : option metadata) (q : request) (input : list byte) : seen * list byte :=
  match q with
  | RHello => match client_hello input with
              | COk _ r => (SHello, r) | CErr e r => (SError e, r) | CPanic => (SPanic, []) end
  | RMetadata => match client_metadata input with
              | COk m r => (SMetadata m, r) | CErr e r => (SError e, r) | CPanic => (SPanic, []) end
  | RRead _ => match client_fetch_stripe md input with
              | COk d r => (SData d, r) | CErr e r => (SError e, r) | CPanic => (SPanic, []) end
  end.
Fixpoint client_all (md : option metadata) (qs : list request) (input : list byte) : list seen * list byte :=
  match qs with
  | [] => ([], input)
  | q :: qs' =>
    let (s, r) := client_one md q input in
    let (ss, r') := client_all md qs' r in (s :: ss, r')
  end.

(** Reads fill the whole buffer they are given. *)
Definition full_reads (o : io) : Prop :=
  (forall s n len d, io_dev o s n len = Some d -> length d = len) /\
  (forall i len d, io_src o i len = Some d -> length d = len).

(** ** Logical contents *)

(** A device's logical contents, from its stripes' headers, the local disk and the
    image it is being filled from. *)
Definition logical (hs : list byte) (local image : N -> list byte) (i : N) : list byte :=
  match nth_error hs (N.to_nat i) with
  | Some h => if in_source_only h then image i else local i
  | None => []
  end.

(** All reads succeed and return the contents of the local disk and of the image. *)
Definition honest (shift : N) (local image : N -> list byte) (o : io) : Prop :=
  (forall i, io_dev o (i * 2 ^ shift) (2 ^ shift) (N.to_nat (512 * 2 ^ shift)) = Some (local i)) /\
  (forall i, io_src o i (N.to_nat (512 * 2 ^ shift)) = Some (image i)).

(** A list of requests, how the reads for each end, and the right answers, none of
    which is a failed read. *)
Fixpoint answered (shift : N) (hs : list byte) (src : bool)
  (qs : list request) (os : list io) (ans : list answer) : Prop :=
  match qs, os, ans with
  | [], [], [] => True
  | q :: qs', o :: os', a :: ans' =>
      full_reads o /\ right_answer shift hs src o q a /\ a <> AFailed /\ answered shift hs src qs' os' ans'
  | _, _, _ => False
  end.

(** Metadata the client can take: what loading can return, and at most 64 MiB. *)
Definition servable (shift : N) (hs : list byte) : Prop :=
  shift <= 17 /\ N.of_nat (length hs) < 2 ^ 32 /\
  512 * (1 + (N.of_nat (length hs) + 507) / 508) <= 64 * 1024 * 1024.
