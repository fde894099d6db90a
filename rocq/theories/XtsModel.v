(** The [xts] command line tool: encoding and decoding disk images.

    Files are byte strings under a path; paths are numbers here, and two paths
    are the same file exactly when they are the same number (no hard links or
    symbolic links).  Device and key handling is that of CryptModel.v. *)
From Coq Require Import List Arith NArith Bool.
Import ListNotations.
From Verif Require Import Base CryptModel.

Definition files := nat -> option (list byte).

(** The command line: bin/xts.rs:33-55 [Args].  Sector numbers are u64 in the
    code; a number that gets past the range checks is below the number of
    sectors of a real file, so no arithmetic on it overflows. *)
Record xts_args := { x_input : nat; x_output : nat; x_start : option nat; x_len : option nat }.

(** bin/xts.rs:18. *)
Definition MAX_CHUNK : nat := 1024.

(** bin/xts.rs:63-89 and 138-164: the range of sectors to work on, from the size
    of the input in bytes.  (SyncBlockDevice::new, bdev_sync.rs:133-160, makes
    the size check on the decoding side, bin/xts.rs:132-136 on the other.) *)
Definition xts_range (input_len : nat) (a : xts_args) : res (nat * nat) :=
  if negb (input_len mod 512 =? 0) then Err 1
  else
    let total := input_len / 512 in
    let start := match x_start a with Some s => s | None => 0 end in
    if total <=? start then Err 2
    else
      let available := total - start in
      match x_len a with
      | Some len => if len =? 0 then Ok (start, 0) else if available <? len then Err 3 else Ok (start, len)
      | None => Ok (start, available)
      end.

(** [read_exact_at] (bdev_sync.rs:45-60) and [read_exact] at the position of the
    input file (bin/xts.rs:194): all the bytes or an error. *)
Definition read_exact_at (f : list byte) (off len : nat) : option (list byte) :=
  if off + len <=? length f then Some (firstn len (skipn off f)) else None.

(** [write_all_at] (bdev_sync.rs:62-74) on a regular file: the bytes before the
    offset that do not exist yet become zeros (a hole). *)
Definition write_at (f : list byte) (off : nat) (d : list byte) : list byte :=
  firstn off (f ++ repeat 0%N (off - length f)) ++ d ++ skipn (off + length d) f.

(** Every read or write of the disks can fail; [io k] tells whether the [k]-th
    chunk's can be done. *)

(** bin/xts.rs:104-119 [decode]: [fuel] bounds the number of turns (it is never
    reached, see the theorems).  A read through the encrypted device decrypts
    the whole buffer when it completes (bdev_crypt.rs:59-77); the synchronous
    device completes at once, so [wait_for_completion] returns its result.
    BufWriter may write later than modelled, at the latest in the flush of line
    121. *)
Fixpoint decode_loop (dec : list byte -> list byte -> list byte) (io : nat -> bool) (fuel : nat)
    (fs : files) (inp out : nat) (current remaining k : nat) : files * res unit :=
  match fuel with
  | 0 => (fs, if remaining =? 0 then Ok tt else Panic)
  | S fuel =>
    if remaining =? 0 then (fs, Ok tt)
    else
      let chunk := Nat.min remaining MAX_CHUNK in
      match fs inp, fs out with
      | Some f, Some o =>
        match read_exact_at f (current * 512) (chunk * 512) with
        | None => (fs, Err 4)
        | Some raw =>
          if negb (io k) then (fs, Err 4)
          else
            match xts_process dec raw (N.of_nat current) chunk with
            | Ok data =>
              decode_loop dec io fuel (upd fs out (Some (o ++ data))) inp out (current + chunk) (remaining - chunk) (S k)
            | Err e => (fs, Err e)
            | Panic => (fs, Panic)
            end
        end
      | _, _ => (fs, Err 5)
      end
  end.

(** bin/xts.rs:57-124 [decode]. *)
Definition decode (dec : list byte -> list byte -> list byte) (io : nat -> bool) (fs : files) (a : xts_args)
    : files * res unit :=
  match fs (x_input a) with
  | None => (fs, Err 5)
  | Some f =>
    match xts_range (length f) a with
    | Ok (start, count) =>
      decode_loop dec io (S count) (upd fs (x_output a) (Some [])) (x_input a) (x_output a) start count 0
    | Err e => (fs, Err e)
    | Panic => (fs, Panic)
    end
  end.

(** bin/xts.rs:187-204 [encode]: [pos] is the position of the input file, which
    reading advances.  A write through the encrypted device encrypts the buffer
    and hands it to the file (bdev_crypt.rs:43-52). *)
Fixpoint encode_loop (enc : list byte -> list byte -> list byte) (io : nat -> bool) (fuel : nat)
    (fs : files) (inp out : nat) (pos current remaining k : nat) : files * res unit :=
  match fuel with
  | 0 => (fs, if remaining =? 0 then Ok tt else Panic)
  | S fuel =>
    if remaining =? 0 then (fs, Ok tt)
    else
      let chunk := Nat.min remaining MAX_CHUNK in
      match fs inp, fs out with
      | Some f, Some o =>
        match read_exact_at f pos (chunk * 512) with
        | None => (fs, Err 4)
        | Some data =>
          match xts_process enc data (N.of_nat current) chunk with
          | Ok c =>
            if negb (io k) then (fs, Err 4)
            else encode_loop enc io fuel (upd fs out (Some (write_at o (current * 512) c))) inp out
                   (pos + chunk * 512) (current + chunk) (remaining - chunk) (S k)
          | Err e => (fs, Err e)
          | Panic => (fs, Panic)
          end
        end
      | _, _ => (fs, Err 5)
      end
  end.

(** bin/xts.rs:126-207 [encode]: the output is emptied, then [set_len] makes it
    [sectors_to_process] zero sectors. *)
Definition encode (enc : list byte -> list byte -> list byte) (io : nat -> bool) (fs : files) (a : xts_args)
    : files * res unit :=
  match fs (x_input a) with
  | None => (fs, Err 5)
  | Some f =>
    match xts_range (length f) a with
    | Ok (start, count) =>
      encode_loop enc io (S count) (upd fs (x_output a) (Some (repeat 0%N (count * 512))))
        (x_input a) (x_output a) (start * 512) start count 0
    | Err e => (fs, Err e)
    | Panic => (fs, Panic)
    end
  end.
