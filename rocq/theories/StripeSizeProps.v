(** Property C48: a stripe source with another stripe size than the device. *)
From Coq Require Import List Arith NArith ZArith Bool Lia ZifyBool ZifyNat ZifyN.
Import ListNotations.
From Verif Require Import Base BaseFacts MetadataModel MetadataSpec RemoteModel RemotePoolModel RemotePoolProofs RemotePoolProps
  CryptModel KeyModel ArchiveModel ArchiverModel ArchiveSpec ArchiveToy ArchiveExamples ArchiveSourceModel ExportProps.
Local Open Scope nat_scope.

(** A remote server whose stripes have another size is refused. *)
Theorem C48_remote_size_checked_partial : forall w c conns ssc t m,
  w_meta w c = Some m -> (2 ^ md_shift m)%N <> ssc ->
  exists e, pool_new w (c :: conns) ssc t = Err e.
Proof.
  intros w c conns ssc t m Hm Hs. exists 3%N. unfold pool_new. rewrite Hm.
  unfold stripe_sector_count. rewrite N.shiftl_1_l.
  destruct (2 ^ md_shift m =? ssc)%N eqn:E; [apply N.eqb_eq in E; contradiction|reflexivity].
Qed.

Example C48_nonvacuous : exists e, pool_new flaky [0; 0] 2 0 = Err e.
Proof. apply (C48_remote_size_checked_partial flaky 0 [0] 2%N 0 (ex_meta 0 [2; 0; 6]%N)); [reflexivity|discriminate]. Qed.

(** An archive is not checked: neither opening it (archive.rs:36-61 [new]) nor the
    builder (builder.rs:52-61) looks at its stripe size.  A disk of one-sector
    stripes is archived, and the archive is used as the source of a device with
    two-sector stripes: its stripe 1 (sectors 2 and 3 of the disk) counts as having
    no data although the disk has data there, and its stripe 2 (sectors 4 and 5) is
    fetched with success but has the contents of sector 2. *)
Definition sectors_of (c : aconf) (j : nat) : list byte := contents c (2 * j) ++ contents c (2 * j + 1).

Theorem C48_refuted_archive_stripe_size :
  exists c es s src,
    aconf_ok c /\ ac_ssc c = 1%N /\
    arun toy_prims c (anew c) es = Some s /\ a_phase s = PDone /\
    open_archive toy_prims (a_store s) (ac_kek c) = Ok src /\
    (has_stripe src 1 = false /\ ~ all_zero (sectors_of c 1)) /\
    (exists b, fetch_stripe toy_prims (a_store s) src 2 1024 = Ok b /\ b <> sectors_of c 2).
Proof.
  exists demo_plain, finish_plain. eexists _, _.
  split; [apply demo_ok; exact I|]. split; [reflexivity|].
  split; [vm_compute; reflexivity|]. split; [vm_compute; reflexivity|].
  split; [vm_compute; reflexivity|]. split; [split; [vm_compute; reflexivity|]|].
  - intros H. unfold all_zero in H. rewrite Forall_forall in H.
    specialize (H 102%N). assert (X : 102%N = 0%N) by (apply H; vm_compute; left; reflexivity). discriminate.
  - eexists. split; [vm_compute; reflexivity|]. intros H. apply (f_equal (fun l => nth 0 l 0%N)) in H.
    vm_compute in H. discriminate.
Qed.

Print Assumptions C48_remote_size_checked_partial.
Print Assumptions C48_refuted_archive_stripe_size.
