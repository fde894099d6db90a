(** The tools that work on a device whose backend has stopped: the archive
    command (src/bin/archive.rs) and the stripe server as it is set up for such a
    device (src/stripe_server/prepare.rs).  They open the files the lazy device
    (LazyModel.v) left behind.

    A sector of the lazy device is a value of any type [V]; [enc] gives its bytes.
    The encryption of the disk is below this level (CryptProps.v). *)
From Coq Require Import List Arith NArith Bool.
Import ListNotations.
From Verif Require Import Base DiskSpec LazyState MetadataModel LazyModel KeyModel ArchiveModel ArchiverModel.
From Verif Require RemoteModel.

Section Offline.
Context {V : Type}.
Variable c_ : cfg V.
Variable enc : V -> list byte.

(** bin/archive.rs:96-97 and prepare.rs:28-35: the stripe headers in the metadata
    file of the stopped device [s] (loading what the device stored is C02). *)
Definition headers_on_disk (s : state V) : list N :=
  map (loaded_headers c_ (mh s)) (seq 0 (nst c_)).

(** archiver.rs:149-154 and session.rs:151-168: reading a whole stripe of the data
    file. *)
Definition sector_bytes (l : list (nat * V)) : list byte :=
  match cur l with Some v => enc v | None => [] end.
Definition disk_stripe (s : state V) (st : nat) : list byte :=
  concat (map (fun x => sector_bytes (bh s x)) (seq (st * ssc c_) (ssc c_))).

(** archiver.rs:157 and session.rs:170-176: a whole stripe of the source.  Only used
    for stripes the source covers (see [wc_cover] in LazySpec.v). *)
Definition source_stripe (st : nat) : list byte :=
  concat (map (fun x => enc (image c_ x)) (seq (st * ssc c_) (ssc c_))).

(** The command line and the random values of one run of archive. *)
Record archive_options := mk_archive_options {
  ao_cipher : option (list byte * list byte); ao_comp : compression; ao_kek : kek;
  ao_hmac_key : list byte; ao_nonce_key : list byte; ao_nonce_hmac : list byte }.

(** bin/archive.rs:83-137 [run]: the archiver is given the headers, the data file,
    the source and four buffers.  [track_written] is not consulted. *)
Definition archive_conf (s : state V) (o : archive_options) : aconf :=
  mk_aconf (div_ceil (target c_) (ssc c_)) (headers_on_disk s) (N.of_nat (ssc c_))
    (ao_cipher o) (ao_comp o) (ao_kek o) (ao_hmac_key o) (ao_nonce_key o) (ao_nonce_hmac o) 4
    (disk_stripe s) source_stripe.

(** prepare.rs:24-75 on the stopped device: the server with stripes of [2^shift]
    sectors. *)
Definition server_of (s : state V) (shift : N) (source_configured : bool) : res RemoteModel.session :=
  RemoteModel.prepare_stripe_server
    (Some (mk_metadata UBI_MAGIC [2; 0]%N [0; 0]%N shift (headers_on_disk s)))
    (track c_) source_configured (target c_).

End Offline.
