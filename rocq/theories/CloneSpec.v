(** Specification side of C89: what a stripe server reads and what its clients get. *)
From Coq Require Import List Arith NArith Bool.
Import ListNotations.
From Verif Require Import Base DiskSpec MetadataModel LazyModel LazyState LazySpec SetupModel StackModel StackSpec.
From Verif Require RemoteModel.

(** Stripe [st] of some sectors, in stripes of [n]. *)
Definition stripe_at (data : nat -> sector) (n st : nat) : list byte := concat (map data (seq (st * n) n)).

(** Sector [x] of the configured source. *)
Definition sourced (w : world) (c : config) (x : nat) : sector :=
  match source_of w c with SrcRaw _ img _ => img x | SrcArchive _ d | SrcRemote _ d => d x | SrcNone => [] end.

Section Clone.
Variable xts : list byte -> list byte -> (list byte -> list byte -> list byte) * (list byte -> list byte -> list byte).

(** The I/O of the server [ss] over the files in [w] succeeds: a stripe of the data device
    is what the data file holds, seen through the cipher; a stripe that was not fetched is
    what the source holds. *)
Definition reads_device (w : world) (c : config) (ss : RemoteModel.session) (o : RemoteModel.io) : Prop :=
  let m := RemoteModel.ss_meta ss in
  let n := N.to_nat (2 ^ md_shift m) in
  forall st, st < length (md_headers m) ->
    RemoteModel.io_dev o (N.of_nat st * 2 ^ md_shift m) (2 ^ md_shift m) (n * 512) = Some (stripe_at (data_sector xts w c) n st) /\
    (N.testbit (nth st (md_headers m) 0%N) 2 = true -> N.testbit (nth st (md_headers m) 0%N) 0 = false -> c_source c <> None ->
     RemoteModel.io_src o (N.of_nat st) (n * 512) = Some (stripe_at (sourced w c) n st)).

(** [data] is what the clients of the server get, for the stripes it has. *)
Definition delivers (ss : RemoteModel.session) (o : RemoteModel.io) (data : nat -> sector) : Prop :=
  forall st reply bytes rest,
    RemoteModel.remote_has_stripe (md_headers (RemoteModel.ss_meta ss)) st = Ok true ->
    RemoteModel.handle_read_stripe ss o (N.of_nat st) = Ok (reply, true) ->
    RemoteModel.client_fetch_stripe (Some (RemoteModel.ss_meta ss)) reply = RemoteModel.COk bytes rest ->
    stripe_at data (N.to_nat (2 ^ md_shift (RemoteModel.ss_meta ss))) st = bytes.

(** With track_written, the server does not send stripes that were never written and have
    no source: on both disks these are to be zeros. *)
Definition zeros_where_unused (w : world) (c : config) (l : launched) : Prop :=
  forall k h, l_lazy l = Some (k, h) -> forall x, x < target k ->
    N.testbit (h (x / ssc k)) 2 = false (* HAS_SOURCE *) -> N.testbit (h (x / ssc k)) 1 = false (* WRITTEN *) ->
    data_sector xts w c x = repeat 0%N 512.

End Clone.

(** The device is made of whole stripes; without metadata it is served in stripes of 1 MiB. *)
Definition in_whole_stripes (l : launched) : Prop :=
  (forall k h, l_lazy l = Some (k, h) -> target k = nst k * ssc k) /\
  (l_lazy l = None -> sector_count (l_bdev l) mod N.to_nat 2048 = 0).
