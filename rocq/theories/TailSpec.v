(** Specification side of C90: a stripe server over a plain file of a given length, read
    with the sync engine. *)
From Coq Require Import List Arith NArith.
Import ListNotations.
From Verif Require Import Base DiskSpec MetadataModel SyncModel StackModel.
From Verif Require RemoteModel.

(** Nothing is written. *)
Definition no_write {V} (e : sevent V) : Prop := match e with SWrite _ _ _ _ _ _ => False | _ => True end.

(** What the server's reads of the disk return is what some run of the sync device on a
    file of [len] sectors returned. *)
Definition reads_file (len : nat) (contents : nat -> list byte) (m : metadata) (o : RemoteModel.io) : Prop :=
  forall st bytes, let n := (2 ^ md_shift m)%N in
    RemoteModel.io_dev o (N.of_nat st * n) n (N.to_nat n * 512) = Some bytes ->
    exists es s tr k q id data,
      srun 512 1 false false (new_sdev len contents) es = Some (s, tr) /\ Forall no_write es /\
      In (TIssue k q id (RRead (st * N.to_nat n) (N.to_nat n))) tr /\ In (TDone k q id true (map Some data)) tr /\
      bytes = concat data.

(** The server takes stripe [st] from its own disk. *)
Definition from_disk (m : metadata) (st : nat) : Prop :=
  st < length (md_headers m) /\
  let h := nth st (md_headers m) 0%N in
  (N.testbit h 2 = true (* HAS_SOURCE *) -> N.testbit h 0 = true (* FETCHED *)) /\
  (N.testbit h 1 = true (* WRITTEN *) \/ N.testbit h 2 = true).
