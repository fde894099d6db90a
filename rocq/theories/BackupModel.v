(** The archive command on a whole device: src/bin/archive.rs on the files of a backend that
    was stopped, down to the files and the cipher. *)
From Coq Require Import List Arith NArith Bool.
Import ListNotations.
From Verif Require Import Base MetadataModel SetupModel StackModel KeyModel ArchiveModel ArchiverModel OfflineModel.

Section Backup.
Variable w : world.
Variable xts : list byte -> list byte -> (list byte -> list byte -> list byte) * (list byte -> list byte -> list byte).

(** A sector in a stripe buffer.  (A source is only asked for stripes it covers; for the
    others zeros stand here.) *)
Definition in_buffer (v : list byte) : list byte := firstn 512 (v ++ repeat 0%N 512).

(** bin/archive.rs:88-133 [run] and archiver.rs:41-85 [StripeArchiver::new]: what the
    archiver works with.  The devices are opened read-only; [track_written] is not
    consulted.  archiver.rs:146-161: a stripe is read from the disk's device, through its
    cipher, or asked of the source. *)
Definition archive_of (c : config) (o : archive_options) : res aconf :=
  match c_metadata c with
  | None => Err 65
  | Some p =>
    let! meta := build_block_device w p c true in
    let! m := load_metadata w xts meta in
    let! disk := build_block_device w (c_data c) c true in
    let n := N.to_nat (stripe_sector_count m) in
    let! _ := build_stripe_source w c n (has_fetched_all_stripes m) in
    Ok (mk_aconf (div_ceil (sector_count disk) n) (md_headers m) (stripe_sector_count m)
          (ao_cipher o) (ao_comp o) (ao_kek o) (ao_hmac_key o) (ao_nonce_key o) (ao_nonce_hmac o) 4
          (fun st => concat (map (plain_sector w xts disk) (seq (st * n) n)))
          (fun st => concat (map (fun x => in_buffer (delivered w xts c disk x)) (seq (st * n) n))))
  end.

End Backup.
