(** Independent description of the on-disk metadata format, written from the
    layout comment in types.rs:71-78 and docs, not from the model's code. *)
From Coq Require Import List Arith NArith Bool.
From Verif Require Import Base MetadataModel.
Import ListNotations.

(** Little-endian 32-bit number stored at byte [p]. *)
Definition u32_at (buf : list byte) (p : nat) : N :=
  (nth p buf 0 + 256 * nth (p + 1) buf 0 + 65536 * nth (p + 2) buf 0 + 16777216 * nth (p + 3) buf 0)%N.

(** Bytes [p .. p+n). *)
Definition bytes_at (buf : list byte) (p n : nat) : list byte := map (fun i => nth (p + i) buf 0%N) (seq 0 n).

(** Byte position of the header of stripe [i]: sector [1 + i/508], byte [i mod 508]. *)
Definition header_pos (i : nat) : nat := 512 * (1 + i / 508) + i mod 508.

(** The number of sectors in use for [n] stripes: the header sector, and the
    sectors holding the [n] headers. *)
Definition sector_in_use (n s : nat) : Prop := s = 0 \/ exists i, i < n /\ s = 1 + i / 508.

(** [buf] is a correct image of a device with stripe shift [shift] and header
    bytes [hs]. *)
Record valid_image (buf : list byte) (shift : N) (hs : list byte) : Prop := {
  vi_min : 512 <= length buf;
  vi_len : length buf mod 512 = 0;
  vi_magic : bytes_at buf 0 9 = [66; 68; 69; 86; 95; 85; 66; 73; 0]%N;   (* "BDEV_UBI\0" *)
  vi_version : bytes_at buf 9 4 = [2; 0; 0; 0]%N;                       (* 2.0 *)
  vi_shift : nth 13 buf 0%N = shift;
  vi_shift_max : (shift <= 17)%N;
  vi_count : u32_at buf 14 = N.of_nat (length hs);
  vi_fits : forall i, i < length hs -> header_pos i < length buf;
  vi_crc : forall s, sector_in_use (length hs) s ->
      u32_at buf (512 * s + 508) = crc32 (bytes_at buf (512 * s) 508);
  vi_headers : forall i, i < length hs -> nth i hs 0%N = nth (header_pos i) buf 0%N
}.

(** Metadata values the current tool produces and accepts. *)
Definition current_metadata (shift : N) (hs : list byte) : metadata :=
  mk_metadata [66; 68; 69; 86; 95; 85; 66; 73; 0]%N [2; 0]%N [0; 0]%N shift hs.
