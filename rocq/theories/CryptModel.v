(** Model of the encrypting block device: src/crypt/block.rs (XTS per-sector
    encryption of buffers) and src/block_device/bdev_crypt.rs (the channel). *)
From Coq Require Import List Arith NArith Bool.
Import ListNotations.
From Verif Require Import Base DiskSpec.

(** ** crypt/block.rs *)

Definition SECTOR := 512%nat.   (* backends/mod.rs: SECTOR_SIZE *)

(** crypt/block.rs:102-114 [get_initial_tweak]: eight zero bytes, then the
    sector number as a little-endian u64 ([le_bytes 8] wraps modulo 2^64, as the
    u64 addition [sector_start + i] does in release builds). *)
Definition tweak (sector : N) : list byte := repeat 0%N 8 ++ le_bytes 8 sector.

(** crypt/block.rs:127-143 [decrypt] and 145-161 [encrypt]: the same loop around
    a different primitive.  [f tweak data] is the isa-l call XTS_AES_256_enc/dec
    with the two keys already applied; it works in place on the 512-byte slice
    [buf[i*512..(i+1)*512]], which panics when the buffer is too short.  [n] is
    what remains of [sector_count], [i] the loop variable. *)
Fixpoint xts_loop (f : list byte -> list byte -> list byte) (start : N) (n i : nat)
  (buf : list byte) : res (list byte) :=
  match n with
  | O => Ok buf
  | S n' =>
    let! d := slice buf (i * SECTOR) ((i + 1) * SECTOR) in
    xts_loop f start n' (S i) (splice buf (i * SECTOR) (f (tweak (start + N.of_nat i)) d))
  end.

Definition xts_process (f : list byte -> list byte -> list byte) (buf : list byte)
  (start : N) (count : nat) : res (list byte) := xts_loop f start count 0 buf.

(** ** block_device/bdev_crypt.rs

    Sectors are values of a type [V]; [enc x] / [dec x] encrypt and decrypt one
    sector with the tweak of sector number [x].  (CryptProofs.v relates this to
    the byte-level loop above.)  Buffers live in a memory [c_mem], as lists of
    sectors; [None] is a sector whose contents the base device did not define
    (it lies beyond the end of the device). *)
Section Device.
Context {V : Type}.
Variable enc dec : nat -> V -> V.
Variable size : nat.   (* bdev_crypt.rs:99-101 [sector_count]: that of the base *)

(** The loop of [encrypt]/[decrypt] on a buffer seen as sectors. *)
Fixpoint crypt_loop (f : nat -> V -> V) (start n i : nat) (buf : list (option V))
  : res (list (option V)) :=
  match n with
  | O => Ok buf
  | S n' =>
    let! d := index buf i in
    crypt_loop f start n' (S i) (set_nth i (option_map (f (start + i)) d) buf)
  end.

(** bdev_crypt.rs:7-11 [Request]. *)
Record creq := mk_creq { r_off : nat; r_cnt : nat; r_buf : nat }.

(** All channels of one device (bdev_crypt.rs:13-17, 92-97): per channel the
    vector [read_requests] (ids beyond its length read as [None]; the resizing
    of bdev_crypt.rs:31-33 is thereby implicit), the buffers, the base device,
    and, for each request the base has in flight, its buffer. *)
Record cdev := mk_cdev {
  c_reads : nat -> nat -> option creq;
  c_mem : nat -> list (option V);
  c_base : disk V;
  c_buf : nat -> nat;
  c_panic : bool
}.

(** bdev_crypt.rs:111-116 [new] over a base device holding [contents]. *)
Definition new_cdev (contents : nat -> V) : cdev :=
  mk_cdev (fun _ _ => None) (fun _ => []) (new_disk contents) (fun _ => 0) false.

Definition upd2 {A} (f : nat -> nat -> A) (q id : nat) (x : A) : nat -> nat -> A :=
  upd f q (upd (f q) id x).

(** The defined contents of a buffer, if all of it is defined. *)
Fixpoint defined (l : list (option V)) : option (list V) :=
  match l with
  | [] => Some []
  | Some v :: r => match defined r with Some d => Some (v :: d) | None => None end
  | None :: _ => None
  end.

Inductive cevent :=
| CFill (b : nat) (data : list V)          (* the caller puts data in a buffer *)
| CRead (n q id off cnt b : nat)           (* add_read *)
| CWrite (n q id off cnt b : nat)          (* add_write *)
| CFlush (n q id : nat)                    (* add_flush *)
| CBase (e : devent V)                     (* the base device applies or samples one sector *)
| CDone (n : nat) (ok : bool)              (* the base completes request n and poll reports it *)
| CCrash (survivor : nat -> nat).

(** The buffer with its first sectors replaced.  Used when a read is added: until
    the base device fills them, the sectors of a read buffer are undefined. *)
Definition put (data buf : list (option V)) : list (option V) :=
  data ++ skipn (length data) buf.

(** bdev_crypt.rs:61-80 [poll], for one completion [(id, ok)] of the base: the
    recorded read request, if any, is taken, and its buffer decrypted when the
    result is success. *)
Definition poll_one (q id : nat) (ok : bool) (s : cdev) : cdev :=
  match c_reads s q id with
  | None => s
  | Some r =>
    let reads := upd2 (c_reads s) q id None in
    if ok then
      match crypt_loop dec (r_off r) (r_cnt r) 0 (c_mem s (r_buf r)) with
      | Ok buf => mk_cdev reads (upd (c_mem s) (r_buf r) buf) (c_base s) (c_buf s) (c_panic s)
      | _ => mk_cdev reads (c_mem s) (c_base s) (c_buf s) true
      end
    else mk_cdev reads (c_mem s) (c_base s) (c_buf s) (c_panic s)
  end.

(** One step, with what the caller of the encrypting device observes.  [None]:
    the event is not possible. *)
Definition cstep (s : cdev) (e : cevent) : option (cdev * list (titem V)) :=
  match e with
  | CFill b data =>
    Some (mk_cdev (c_reads s) (upd (c_mem s) b (map Some data)) (c_base s) (c_buf s) (c_panic s), [])
  | CRead n q id off cnt b =>   (* bdev_crypt.rs:30-41 *)
    match dstep size (c_base s) (DIssue n q id (RRead off cnt)) with
    | None => None
    | Some (d, _) =>
      Some (mk_cdev (upd2 (c_reads s) q id (Some (mk_creq off cnt b)))
                    (upd (c_mem s) b (put (repeat None cnt) (c_mem s b))) d
                    (upd (c_buf s) n b) (c_panic s), [TIssue n q id (RRead off cnt)])
    end
  | CWrite n q id off cnt b =>  (* bdev_crypt.rs:43-51 *)
    match defined (firstn cnt (c_mem s b)) with
    | None => None
    | Some plain =>
      match crypt_loop enc off cnt 0 (c_mem s b) with
      | Ok buf =>
        match defined (firstn cnt buf) with
        | None => None
        | Some cipher =>
          match dstep size (c_base s) (DIssue n q id (RWrite off cipher)) with
          | None => None
          | Some (d, _) =>
            Some (mk_cdev (c_reads s) (upd (c_mem s) b buf) d (upd (c_buf s) n b) (c_panic s),
                  [TIssue n q id (RWrite off plain)])
          end
        end
      | _ => Some (mk_cdev (c_reads s) (c_mem s) (c_base s) (c_buf s) true, [])
      end
    end
  | CFlush n q id =>            (* bdev_crypt.rs:53-55 *)
    match dstep size (c_base s) (DIssue n q id RFlush) with
    | None => None
    | Some (d, _) =>
      Some (mk_cdev (c_reads s) (c_mem s) d (c_buf s) (c_panic s), [TIssue n q id RFlush])
    end
  | CBase e =>
    match e with
    | DApply _ _ =>
      (* the base has captured the data when the write was added; the caller
         does not touch the buffer meanwhile *)
      match dstep size (c_base s) e with
      | None => None
      | Some (d, _) => Some (mk_cdev (c_reads s) (c_mem s) d (c_buf s) (c_panic s), [])
      end
    | DSample n i =>
      (* the base stores what it read in the request's buffer *)
      match dstep size (c_base s) e with
      | None => None
      | Some (d, _) =>
        match d_ops d n with
        | Some (mk_dop _ _ (DRead _ _ got)) =>
          let b := c_buf s n in
          Some (mk_cdev (c_reads s) (upd (c_mem s) b (set_nth i (got i) (c_mem s b))) d
                        (c_buf s) (c_panic s), [])
        | _ => None
        end
      end
    | _ => None
    end
  | CDone n ok =>
    match d_ops (c_base s) n with
    | None => None
    | Some o =>
      match dstep size (c_base s) (DDone n ok) with
      | None => None
      | Some (d, _) =>
        let s' := poll_one (d_ch o) (d_id o) ok
                    (mk_cdev (c_reads s) (c_mem s) d (c_buf s) (c_panic s)) in
        let data := match d_kind o with
                    | DRead _ len _ => if ok then firstn len (c_mem s' (c_buf s n)) else []
                    | _ => []
                    end in
        Some (s', [TDone n (d_ch o) (d_id o) ok data])
      end
    end
  | CCrash survivor =>
    (* the process restarts with empty channels *)
    match dstep size (c_base s) (DCrash survivor) with
    | None => None
    | Some (d, _) => Some (mk_cdev (fun _ _ => None) (fun _ => []) d (fun _ => 0) false, [TCrash])
    end
  end.

Fixpoint crun (s : cdev) (es : list cevent) : option (cdev * list (titem V)) :=
  match es with
  | [] => Some (s, [])
  | e :: r =>
    match cstep s e with
    | None => None
    | Some (s1, t1) =>
      match crun s1 r with
      | None => None
      | Some (s2, t2) => Some (s2, t1 ++ t2)
      end
    end
  end.

(** ** What the callers must respect (block_device/mod.rs:16-34, the IoChannel
    contract): ids are unique among the requests in flight on a channel, a
    buffer belongs to one request at a time and is not touched meanwhile, and it
    is large enough. *)
Definition id_free (s : cdev) (q id : nat) : Prop :=
  forall n o, d_ops (c_base s) n = Some o -> d_ch o = q -> d_id o <> id.

Definition is_flush (k : dkind V) : bool := match k with DFlush _ => true | _ => false end.

Definition buf_free (s : cdev) (b : nat) : Prop :=
  forall n o, d_ops (c_base s) n = Some o -> is_flush (d_kind o) = false -> c_buf s n <> b.

Definition call_ok (s : cdev) (e : cevent) : Prop :=
  match e with
  | CFill b _ => buf_free s b
  | CRead _ q id _ cnt b | CWrite _ q id _ cnt b =>
    id_free s q id /\ buf_free s b /\ cnt <= length (c_mem s b)
  | CFlush _ q id => id_free s q id
  | _ => True
  end.

Fixpoint calls_ok (s : cdev) (es : list cevent) : Prop :=
  match es with
  | [] => True
  | e :: r => call_ok s e /\ match cstep s e with Some (s1, _) => calls_ok s1 r | None => True end
  end.

End Device.
Arguments cevent : clear implicits.
Arguments cdev : clear implicits.
