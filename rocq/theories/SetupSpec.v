(** Vocabulary for the properties of setting a device up. *)
From Coq Require Import List Arith NArith Bool.
Import ListNotations.
From Verif Require Import Base MetadataModel CryptModel CryptSpec SetupModel.
From Verif Require ArchiveModel.

Section Spec.
Context {V : Type}.

(** The source has data for stripe [st] of a device with stripes of [ssc] sectors:
    the raw image reaches into the stripe; the archive lists it; the server says it
    was written there or is part of its own source (bits 1 and 2 of its header). *)
Definition source_holds (s : stripe_source V) (ssc st : nat) : Prop :=
  match s with
  | SrcNone => False
  | SrcRaw n _ _ => st * ssc < n
  | SrcArchive a _ => In st (map fst (ArchiveModel.s_map a))
  | SrcRemote m _ => st < length (md_headers m) /\
      (N.testbit (nth st (md_headers m) 0%N) 1 = true \/ N.testbit (nth st (md_headers m) 0%N) 2 = true)
  end.

(** The source is no larger than a disk of [sectors] sectors: archives and servers
    deliver whole stripes, all of which must fit. *)
Definition source_fits (s : stripe_source V) (ssc sectors : nat) : Prop :=
  match s with
  | SrcRaw n _ _ => n <= sectors
  | _ => forall st, source_holds s ssc st -> (st + 1) * ssc <= sectors
  end.

(** What the theorems need to know about a source: a raw image ends at the end of a
    stripe or of the disk (see LazyRefuted.v for the others), an archive was made
    with the same stripe size (see C48), a server's size is below 2^64. *)
Definition source_usable (s : stripe_source V) (shift : N) (sectors : nat) : Prop :=
  match s with
  | SrcNone => True
  | SrcRaw n _ _ => n mod N.to_nat (2 ^ shift) = 0 \/ n = sectors
  | SrcArchive a _ => ArchiveModel.s_ssc a = (2 ^ shift)%N
  | SrcRemote m _ => md_shift m = shift /\ (N.of_nat (length (md_headers m)) * 2 ^ shift < 2 ^ 64)%N
  end.

(** Sector [x] of the source. *)
Definition source_sector (s : stripe_source V) (x : nat) (v : V) : Prop :=
  match s with
  | SrcNone => False
  | SrcRaw _ img _ => v = img x
  | SrcArchive _ d | SrcRemote _ d => v = d x
  end.

(** [contents] is the source laid over the disk: the sectors of the stripes for
    which the source has data are the source's, the others those of the disk. *)
Definition overlaid (su : setup V) (ssc sectors : nat) (contents : nat -> V) : Prop :=
  forall x, x < sectors ->
    (source_holds (su_source su) ssc (x / ssc) -> source_sector (su_source su) x (contents x)) /\
    (~ source_holds (su_source su) ssc (x / ssc) -> contents x = su_base su x).

End Spec.

(** The sector cipher, if there is one, can be undone. *)
Definition cipher_ok (k : cipher) : Prop :=
  match k with None => True | Some (enc, dec) => tweakable_cipher enc dec end.

(** A file in which a write of the whole file has taken effect on some sectors and
    not on others. *)
Definition torn (old new f : list byte) : Prop :=
  length old = length new /\ length f = length new /\
  forall s, s * 512 < length new -> sector_of f s = sector_of old s \/ sector_of f s = sector_of new s.

(** What a reader of the device sees in sector [s] of the file. *)
Definition seen_sector (k : cipher) (f : list byte) (s : nat) : list byte :=
  match k with None => sector_of f s | Some (_, dec) => dec (tweak (N.of_nat s)) (sector_of f s) end.

(** A sector whose last four bytes are not the checksum of the others. *)
Definition unsealed (sec : list byte) : Prop :=
  skipn 508 sec <> le_bytes 4 (crc32 (firstn 508 sec)).

(** Group and others have no access. *)
Definition private (p : node) : Prop :=
  match p with NFile mode _ => N.land mode 63 = 0%N (* 0o077 *) | _ => True end.
(** Permission bits exactly 0o600: read and write for the owner. *)
Definition owner_only (p : node) : Prop :=
  match p with NFile mode _ => N.land mode 4095 = 384%N | _ => False end.
