(** Specification side of C84: what a configuration asks for, and what it means for a
    backend's device to be at work. *)
From Coq Require Import List Arith NArith Bool.
Import ListNotations.
From Verif Require Import Base DiskSpec MetadataModel LazyModel LazyState LazySpec CryptModel CryptSpec SetupModel SetupSpec
  SyncModel UringDiskModel UringDiskSpec CryptOpenModel CryptOpenSpec LayerModel StackModel.
From Verif Require SyncSpec LayerProps.

Notation sector := (list byte).

(** ** What a configuration asks for *)

(** The two keys of the cipher are the halves of the configured secret. *)
Definition keys (c : config) : option (list byte * list byte) :=
  match c_key c with
  | None => None
  | Some id => match c_secrets c id with Some k => Some (firstn 32 k, skipn 32 k) | None => None end
  end.

(** The file at [p], opened with the configured engine, directly, and for synchronous
    writes exactly if write_through is configured. *)
Definition opened_as (c : config) (p : path) (entries : N) (readonly : bool) (o : opening) : Prop :=
  o_path o = p /\ o_engine o = c_engine c /\ (c_engine c = IoUring -> o_entries o = entries) /\
  o_readonly o = readonly /\ o_direct o = true /\ o_sync o = c_through c.

(** The device for the file at [p]: behind the cipher exactly if a key is configured;
    that key has 64 bytes. *)
Definition is_device (w : world) (c : config) (p : path) (readonly : bool) (d : device) : Prop :=
  exists o n f, opened_as c p (c_queue c) readonly o /\ w_file w p = Some f /\ length f = n * 512 /\
    match c_key c with
    | None => d = DFile o n
    | Some id => exists k1 k2, c_secrets c id = Some (k1 ++ k2) /\ length k1 = 32 /\ length k2 = 32 /\
        d = DCrypt k1 k2 (DFile o n)
    end.

(** All that must be there for a backend to come up, besides the metadata: the data file, a
    raw image of whole sectors, a ring size io_uring takes, a key of 64 bytes. *)
Definition ready (w : world) (c : config) : Prop :=
  w_statfs w (c_data c) = true /\ w_file w (c_data c) <> None /\
  (forall p a r, c_source c = Some (CRaw p a r) -> exists f, w_file w p = Some f /\ length f mod 512 = 0) /\
  (c_engine c = IoUring -> exists k, c_queue c = (2 ^ k)%N) /\
  (forall id, c_key c = Some id -> exists k, c_secrets c id = Some k /\ length k = 64).

(** What is behind the source is what the configuration says. *)
Definition source_matches (w : world) (c : config) : Prop :=
  match c_source c with
  | Some (CArchive _) => exists a d, w_source w = SrcArchive a d
  | Some (CRemote _) => exists m d, w_source w = SrcRemote m d
  | _ => True
  end.

(** The setup of SetupModel.v that a configuration describes. *)
Section Setup.
Variable xts : list byte -> list byte -> (list byte -> list byte -> list byte) * (list byte -> list byte -> list byte).

Definition cipher_of (c : config) : cipher :=
  match keys c with None => None | Some (k1, k2) => Some (xts k1 k2) end.

(** Sector [x] of the data file, decrypted if it is encrypted. *)
Definition data_sector (w : world) (c : config) (x : nat) : sector :=
  match cipher_of c with
  | None => sector_at w (c_data c) x
  | Some (_, dec) => on_sector dec x (sector_at w (c_data c) x)
  end.

Definition source_of (w : world) (c : config) : stripe_source sector :=
  match c_source c with
  | None => SrcNone
  | Some (CRaw p _ r) => SrcRaw (length (file_of w p) / 512) (sector_at w p) r
  | Some _ => w_source w
  end.

Definition setup_of (w : world) (c : config) : setup sector :=
  mk_setup (length (file_of w (c_data c))) (data_sector w c) (source_of w c)
    (match c_source c with Some s => source_autofetch s | None => false end) (c_track c) (cipher_of c).

(** What the guest is to see at first: the data file, and where a stripe has data in the
    source and has not been fetched, the source. *)
Definition configured_contents (w : world) (c : config) (l : launched) : nat -> sector :=
  match l_lazy l with
  | None => data_sector w c
  | Some (k, h) => initial_contents k (data_sector w c) h
  end.

(** ** Devices at work *)

(** [serves w d tr fin]: a device over a file worked, from the file as it was in [w], with
    the history [tr] towards its callers, and at the end its file holds [fin], seen through
    the cipher; the callers kept their contract (C81, C72), no transfer was short (C81). *)
Inductive serves (w : world) : device -> list (titem sector) -> (nat -> option sector) -> Prop :=
| serves_uring : forall o n es f tr,
    o_engine o = IoUring -> (N.of_nat n < 2 ^ 54)%N ->
    let start := new_fdev n (sector_at w (o_path o)) in
    calls_ok 512 1 (o_readonly o) (o_sync o) (N.to_nat (o_entries o)) n start es -> no_short_transfers es ->
    frun 512 1 (o_readonly o) (o_sync o) (N.to_nat (o_entries o)) start es = Some (f, tr) ->
    serves w (DFile o n) tr (fun x => cur_cell (f_cell f x))
| serves_sync : forall o n es s tr,
    o_engine o = Sync -> (N.of_nat n < 2 ^ 54)%N ->
    Forall (SyncSpec.call_in_range 1 n) es ->
    srun 512 1 (o_readonly o) (o_sync o) (new_sdev n (sector_at w (o_path o))) es = Some (s, tr) ->
    serves w (DFile o n) tr (fun x => cur_cell (s_cell s x))
| serves_crypt : forall k1 k2 base es s g b fin,
    let enc := on_sector (fst (xts k1 k2)) in
    let dec := on_sector (snd (xts k1 k2)) in
    krun enc dec new_kdev es = Some (s, g, b) -> all_buffers_ok enc dec new_kdev es ->
    serves w base b fin ->
    serves w (DCrypt k1 k2 base) g (fun x => option_map (dec x) (fin x)).

(** The device of a backend: the lazy device is that of LayerModel.v (its image, its
    source and its metadata device work as there), over its base device. *)
Definition at_work (w : world) (l : launched) (g : list (titem sector)) (fin : nat -> option sector) : Prop :=
  match l_bdev l, l_lazy l with
  | DLazy base _ _, Some (c, h) =>
    exists oes so b fb, LayerProps.requests_fit c oes /\ orun c (oinit c h) oes = Some (so, g, b) /\
      serves w base b fb /\
      forall x, fin x = if released (shf so (x / ssc c)) then fb x else Some (image c x)
  | d, None => serves w d g fin
  | _, _ => False
  end.

(** The sectors a source delivers are of 512 bytes (for a raw image that is so). *)
Definition whole_sectors (w : world) : Prop :=
  match w_source w with
  | SrcArchive _ d | SrcRemote _ d => forall x, length (d x) = 512
  | _ => True
  end.

End Setup.
