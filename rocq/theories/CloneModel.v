(** The stripe server of a whole device: remote-stripe-server on the files of a backend
    that was stopped (src/stripe_server/prepare.rs), down to the files and the cipher. *)
From Coq Require Import List Arith NArith Bool.
Import ListNotations.
From Verif Require Import Base MetadataModel CryptModel SetupModel StackModel.
From Verif Require RemoteModel.

Section Server.
Variable w : world.
Variable xts : list byte -> list byte -> (list byte -> list byte -> list byte) * (list byte -> list byte -> list byte).

(** legacy.rs:78-102 [read_metadata_bytes]: the whole metadata device, read through the
    cipher [k]. *)
Definition read_metadata_bytes (k : cipher) (file : list byte) : res (list byte) :=
  let! sectors := SetupModel.open_device (length file) in
  if negb (N.of_nat sectors <? 2 ^ 32)%N then Err 23 else decrypt k file sectors.

(** legacy.rs:50-69 [load_metadata_for_serving] through the layers of the metadata device
    (a file, or a file behind the cipher: see [build_block_device]); [sectors]: the size of
    the data device. *)
Definition serving_metadata (d : device) (sectors : nat) : res metadata :=
  match d with
  | DFile o _ =>
    let! buf := read_metadata_bytes None (file_of w (o_path o)) in
    RemoteModel.load_metadata_for_serving buf (N.of_nat sectors)
  | DCrypt k1 k2 (DFile o _) =>
    let! buf := read_metadata_bytes (Some (xts k1 k2)) (file_of w (o_path o)) in
    RemoteModel.load_metadata_for_serving buf (N.of_nat sectors)
  | _ => Err 62
  end.

(** prepare.rs:24-75 [prepare_stripe_server]. *)
Definition stripe_server (c : config) : res RemoteModel.session :=
  let! disk := build_block_device w (c_data c) c false in
  let configured := match c_source c with Some _ => true | None => false end in
  match c_metadata c with
  | Some p =>
    let! meta := build_block_device w p c false in
    let! m := serving_metadata meta (sector_count disk) in
    RemoteModel.prepare_stripe_server (Some m) (c_track c) configured (sector_count disk)
  | None => RemoteModel.prepare_stripe_server None (c_track c) configured (sector_count disk)
  end.

End Server.
