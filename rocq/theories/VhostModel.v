(** Model of the vhost-user-blk request path: parsing of descriptor chains
    (src/backends/vhost/request.rs), the per-queue worker
    (src/backends/vhost/backend_thread.rs) and the configuration space
    (src/backends/vhost/backend.rs).

    Guest memory is a set of valid addresses (fixed: a descriptor chain holds the
    memory snapshot it was popped with, GuestMemoryLoadGuard, backend_thread.rs:32)
    and the byte each of them holds. *)
From Coq Require Import List NArith Arith Bool.
From Verif Require Import Base.
Import ListNotations.
Local Open Scope N_scope.

(** ** Guest memory (crate vm-memory) *)
Definition gmem := N -> byte.

Definition range (a : N) (n : nat) : list N := map (fun i => a + N.of_nat i) (seq 0 n).

Definition gm_upd (m : gmem) (a : N) (b : byte) : gmem := fun x => if x =? a then b else m x.

Section Memory.
(** The addresses the guest memory map covers (GuestMemory::check_address). *)
Variable valid : N -> bool.

(** Bytes::read_obj / read_slice, write_all_volatile_to: all or an error.
    Simplified: an access of length zero succeeds at any address. *)
Definition gm_read (m : gmem) (a : N) (n : nat) : option (list byte) :=
  if forallb valid (range a n) then Some (map m (range a n)) else None.

(** Bytes::write_obj / write_slice, read_exact_volatile_from: stores bytes in
    order; on the first invalid address the rest is dropped and an error is
    returned (PartialBuffer). *)
Fixpoint gm_write (m : gmem) (a : N) (bs : list byte) : gmem * bool :=
  match bs with
  | [] => (m, true)
  | b :: r => if valid a then gm_write (gm_upd m a b) (a + 1) r else (m, false)
  end.
End Memory.

(** ** Descriptor chains (crate virtio-queue) *)
Record desc := mk_desc { d_addr : N; d_len : N; d_write_only : bool; d_has_next : bool }.

(** What a popped chain yields: the head index and the descriptors its iterator
    can produce (it ends early when a next index is invalid or the chain loops). *)
Record chain := mk_chain { c_head : N; c_descs : list desc }.

(** DescriptorChain::next: nothing after a descriptor without a successor. *)
Definition chain_next (l : list desc) : option (desc * list desc) :=
  match l with
  | [] => None
  | d :: r => Some (d, if d_has_next d then r else [])
  end.

(** ** request.rs *)

(** request.rs:86-100 RequestType; request.rs:102-114 From<u32>; the constants
    are the virtio ones (VIRTIO_BLK_T_IN and so on). *)
Inductive rtype := TIn | TOut | TFlush | TGetId | TDiscard | TWriteZeroes | TUnsupported (t : N).

Definition rtype_of (v : N) : rtype :=
  if v =? 0 then TIn
  else if v =? 1 then TOut
  else if v =? 4 then TFlush
  else if v =? 8 then TGetId
  else if v =? 11 then TDiscard
  else if v =? 13 then TWriteZeroes
  else TUnsupported v.

Definition is_in (t : rtype) : bool := match t with TIn => true | _ => false end.

(** request.rs:117-137 Request. *)
Record request := mk_request {
  rq_type : rtype; rq_data : list (N * N); rq_sector : N; rq_status : N }.

(** request.rs: the Error enum as tags. *)
Definition E_TOO_SHORT : N := 1.
Definition E_LEN_SMALL : N := 2.
Definition E_GUEST_MEM : N := 3.
Definition E_READ_ONLY : N := 4.
Definition E_WRITE_ONLY : N := 5.
Definition E_FLUSH_SECTOR : N := 6.

Section Parse.
Variable valid : N -> bool.

(** request.rs:171-193 check_status_desc. *)
Definition check_status_desc (d : desc) : res unit :=
  if negb (d_write_only d) then Err E_READ_ONLY
  else if d_len d <? 1 then Err E_LEN_SMALL
  else if negb (valid (d_addr d)) then Err E_GUEST_MEM
  else Ok tt.

(** request.rs:196-206 check_data_desc. *)
Definition check_data_desc (d : desc) (t : rtype) : res unit :=
  if negb (d_write_only d) && is_in t then Err E_READ_ONLY else Ok tt.

(** request.rs:246-254: the loop over the data descriptors; returns the data
    pairs and the descriptor the loop stopped at. *)
Fixpoint parse_data (t : rtype) (d : desc) (rest : list desc) : res (list (N * N) * desc) :=
  if d_has_next d then
    let! _ := check_data_desc d t in
    match rest with
    | [] => Err E_TOO_SHORT
    | d' :: rest' =>
      let! (l, st) := parse_data t d' rest' in
      Ok ((d_addr d, d_len d) :: l, st)
    end
  else Ok ([], d).

(** request.rs:219-260 parse.  The header is 16 bytes: type u32, reserved u32,
    sector u64 (116-123). *)
Definition parse (m : gmem) (c : chain) : res request :=
  match chain_next (c_descs c) with
  | None => Err E_TOO_SHORT
  | Some (head, rest) =>
    if d_write_only head then Err E_WRITE_ONLY
    else
      match gm_read valid m (d_addr head) 16 with
      | None => Err E_GUEST_MEM
      | Some h =>
        let ty := le_val (firstn 4 h) in
        let sector := le_val (skipn 8 h) in
        if (ty =? 4) && negb (sector =? 0) then Err E_FLUSH_SECTOR
        else
          match chain_next rest with
          | None => Err E_TOO_SHORT
          | Some (d, rest') =>
            let! (l, st) := parse_data (rtype_of ty) d rest' in
            let! _ := check_status_desc st in
            Ok (mk_request (rtype_of ty) l sector (d_addr st))
          end
      end
  end.
End Parse.

(** ** backend_thread.rs *)

(** backend_thread.rs:35-45 RequestSlot. [sl_chain] is the head index of the
    stored descriptor chain. *)
Record slot := mk_slot {
  sl_used : bool; sl_type : rtype; sl_sector : N; sl_reqlen : N;
  sl_buf : list byte; sl_len : N; sl_status : N; sl_chain : option N;
  sl_data : list (N * N) }.

(** Calls on the I/O channel, with what the channel may read of the buffer. *)
Inductive vop :=
| VRead (sector count : N) (id : nat)
| VWrite (sector count : N) (id : nat) (data : list byte)
| VFlush (id : nat).

Definition vop_id (o : vop) : nat :=
  match o with VRead _ _ i => i | VWrite _ _ i _ => i | VFlush i => i end.

(** backend_thread.rs:47-59 UbiBlkBackendThread, the vring's used ring and what
    the channel was asked to do.
    [v_used]: entries added to the used ring, oldest first; [v_pend]:
    ios_pending_signal; [v_signals]: number of notifications sent; [v_ops]: calls
    made on the channel, oldest first; [v_out]: ids the channel has not reported
    yet.  The I/O tracker is modelled in TrackerModel.v. *)
Record vstate := mk_vstate {
  v_mem : gmem; v_slots : list slot; v_used : list N; v_pend : bool;
  v_signals : nat; v_ops : list vop; v_out : list nat }.

Definition set_mem m s := mk_vstate m (v_slots s) (v_used s) (v_pend s) (v_signals s) (v_ops s) (v_out s).
Definition set_slots l s := mk_vstate (v_mem s) l (v_used s) (v_pend s) (v_signals s) (v_ops s) (v_out s).
Definition set_used u s := mk_vstate (v_mem s) (v_slots s) u (v_pend s) (v_signals s) (v_ops s) (v_out s).
Definition set_pend p s := mk_vstate (v_mem s) (v_slots s) (v_used s) p (v_signals s) (v_ops s) (v_out s).
Definition set_signals n s := mk_vstate (v_mem s) (v_slots s) (v_used s) (v_pend s) n (v_ops s) (v_out s).

(** A call on the channel. *)
Definition emit (o : vop) (s : vstate) : vstate :=
  mk_vstate (v_mem s) (v_slots s) (v_used s) (v_pend s) (v_signals s)
    (v_ops s ++ [o]) (v_out s ++ [vop_id o]).

Definition S_OK : byte := 0.
Definition S_IOERR : byte := 1.
Definition S_UNSUPP : byte := 2.
Definition SECTOR : N := 512.
Definition ID_BYTES : N := 20.

(** backend_thread.rs:80-95: a fresh slot of [len] bytes. *)
Definition new_slot (len : N) : slot :=
  mk_slot false (TUnsupported 0) 0 0 (repeat 0 (N.to_nat len)) len 0 None [].

(** backend_thread.rs:252-258 request_len: a u32 sum.  It wraps in a release
    build (Cargo.toml does not set overflow-checks), which is what is modelled; a
    debug build panics instead. *)
Fixpoint request_len (acc : N) (l : list (N * N)) : N :=
  match l with
  | [] => acc
  | (_, n) :: r => request_len ((acc + n) mod 2 ^ 32) r
  end.

(** backend_thread.rs:214 and 306: [&buf[pos..pos + len]]. *)
Definition nslice (buf : list byte) (pos len : N) : res (list byte) :=
  if pos + len <=? N.of_nat (length buf)
  then Ok (firstn (N.to_nat len) (skipn (N.to_nat pos) buf)) else Panic.

(** backend_thread.rs:124-136: the first free slot that is large enough. *)
Fixpoint find_slot (i : nat) (len : N) (l : list slot) : option nat :=
  match l with
  | [] => None
  | sl :: r => if (len <=? sl_len sl) && negb (sl_used sl) then Some i else find_slot (S i) len r
  end.

Definition fill_slot (len : N) (rq : request) (head : N) (sl : slot) : slot :=
  mk_slot true (rq_type rq) (rq_sector rq) len (sl_buf sl) (sl_len sl) (rq_status rq)
    (Some head) (rq_data rq).

(** backend_thread.rs:118-152 get_request_slot. *)
Definition get_request_slot (len : N) (rq : request) (head : N) (l : list slot)
  : nat * list slot :=
  match find_slot 0 len l with
  | Some i => (i, set_nth i (fill_slot len rq head (nth i l (new_slot 0))) l)
  | None => (length l, l ++ [fill_slot len rq head (new_slot len)])
  end.

Definition set_used_flag (u : bool) (sl : slot) : slot :=
  mk_slot u (sl_type sl) (sl_sector sl) (sl_reqlen sl) (sl_buf sl) (sl_len sl) (sl_status sl)
    (sl_chain sl) (sl_data sl).
Definition set_buf (b : list byte) (sl : slot) : slot :=
  mk_slot (sl_used sl) (sl_type sl) (sl_sector sl) (sl_reqlen sl) b (sl_len sl) (sl_status sl)
    (sl_chain sl) (sl_data sl).

(** backend_thread.rs:154-157 put_request_slot (a slot index that exists). *)
Definition put_request_slot (i : nat) (s : vstate) : vstate :=
  set_slots (set_nth i (set_used_flag false (nth i (v_slots s) (new_slot 0))) (v_slots s)) s.

Section Thread.
Variable valid : N -> bool.
(** Size of the virtqueue; the device id string (config.device.device_id). *)
Variable qsize : N.
Variable device_id : list byte.

(** Queue::add_used: refuses a head index outside the queue. *)
Definition add_used (head : N) (s : vstate) : vstate :=
  if head <? qsize then set_used (v_used s ++ [head]) s else s.

(** backend_thread.rs:63-71 complete_bad_chain. *)
Definition complete_bad_chain (head : N) (s : vstate) : vstate := add_used head s.

(** backend_thread.rs:181-200 complete_io. *)
Definition complete_io (head status_addr : N) (status : byte) (s : vstate) : vstate :=
  let s := set_pend true s in
  let '(m, ok) := gm_write valid (v_mem s) status_addr [status] in
  let s := set_mem m s in
  if ok then add_used head s else s.

(** backend_thread.rs:202-224 write_to_guest, from position [pos]: [Ok (m, ok)]
    is the guest memory afterwards and whether every store succeeded. *)
Fixpoint write_to_guest (m : gmem) (buf : list byte) (pos : N) (l : list (N * N))
  : res (gmem * bool) :=
  match l with
  | [] => Ok (m, true)
  | (a, n) :: r =>
    let! ch := nslice buf pos n in
    let '(m', ok) := gm_write valid m a ch in
    if ok then write_to_guest m' buf (pos + n) r else Ok (m', false)
  end.

(** backend_thread.rs:303-313: gather the data descriptors into the buffer.
    The loop goes on after a failed access.  Simplified: a failed access leaves
    the buffer as it was (the request is failed and the buffer not used). *)
Fixpoint gather (m : gmem) (buf : list byte) (pos : N) (ok : bool) (l : list (N * N))
  : res (list byte * bool) :=
  match l with
  | [] => Ok (buf, ok)
  | (a, n) :: r =>
    let! _ := nslice buf pos n in
    match gm_read valid m a (N.to_nat n) with
    | Some bs => gather m (splice buf (N.to_nat pos) bs) (pos + n) ok r
    | None => gather m buf (pos + n) false r
    end
  end.

(** backend_thread.rs:260-284 process_read. *)
Definition process_read (rq : request) (head : N) (s : vstate) : res vstate :=
  let len := request_len 0 (rq_data rq) in
  if negb (len mod SECTOR =? 0) then Ok (complete_io head (rq_status rq) S_IOERR s)
  else
    let '(id, sl) := get_request_slot len rq head (v_slots s) in
    Ok (emit (VRead (rq_sector rq) (len / SECTOR) id) (set_slots sl s)).

(** backend_thread.rs:286-336 process_write. *)
Definition process_write (rq : request) (head : N) (s : vstate) : res vstate :=
  let len := request_len 0 (rq_data rq) in
  if negb (len mod SECTOR =? 0) then Ok (complete_io head (rq_status rq) S_IOERR s)
  else
    let '(id, sls) := get_request_slot len rq head (v_slots s) in
    let sl := nth id sls (new_slot 0) in
    let! (buf, ok) := gather (v_mem s) (sl_buf sl) 0 true (rq_data rq) in
    let s := set_slots (set_nth id (set_buf buf sl) sls) s in
    if ok
    then Ok (emit (VWrite (rq_sector rq) (len / SECTOR) id (firstn (N.to_nat len) buf)) s)
    else Ok (put_request_slot id (complete_io head (rq_status rq) S_IOERR s)).

(** backend_thread.rs:338-347 process_flush. *)
Definition process_flush (rq : request) (head : N) (s : vstate) : res vstate :=
  let '(id, sls) := get_request_slot 0 rq head (v_slots s) in
  Ok (emit (VFlush id) (set_slots sls s)).

(** backend_thread.rs:368-371: the 20 id bytes. *)
Definition id_bytes : list byte :=
  let k := Nat.min (length device_id) (N.to_nat ID_BYTES) in
  firstn k device_id ++ repeat 0 (N.to_nat ID_BYTES - k).

(** backend_thread.rs:349-379 process_get_device_id. *)
Definition process_get_device_id (rq : request) (head : N) (s : vstate) : res vstate :=
  let! (a, n) := index (rq_data rq) 0 in
  if n <? ID_BYTES then Ok (complete_io head (rq_status rq) S_IOERR s)
  else
    let '(m, ok) := gm_write valid (v_mem s) a id_bytes in
    Ok (complete_io head (rq_status rq) (if ok then S_OK else S_IOERR) (set_mem m s)).

(** backend_thread.rs:394-416: one popped descriptor chain. *)
Definition process_chain (c : chain) (s : vstate) : res vstate :=
  match parse valid (v_mem s) c with
  | Ok rq =>
    match rq_type rq with
    | TIn => process_read rq (c_head c) s
    | TOut => process_write rq (c_head c) s
    | TFlush => process_flush rq (c_head c) s
    | TGetId => process_get_device_id rq (c_head c) s
    | _ => Ok (complete_io (c_head c) (rq_status rq) S_UNSUPP s)
    end
  | Err _ => Ok (complete_bad_chain (c_head c) s)
  | Panic => Panic
  end.

Definition remove_out (id : nat) (l : list nat) : list nat :=
  filter (fun x => negb (Nat.eqb x id)) l.
Definition set_out o s :=
  mk_vstate (v_mem s) (v_slots s) (v_used s) (v_pend s) (v_signals s) (v_ops s) o.

(** backend_thread.rs:229-248: one completion [(id, success)] returned by
    io_channel.poll().  [data] is what a successful read of the channel left at
    the start of the slot's buffer (the channel fills the shared buffer at any
    time before it reports the completion). *)
Definition complete_one (id : nat) (success : bool) (data : list byte) (s : vstate) : res vstate :=
  let! sl0 := index (v_slots s) id in
  let sl := if is_in (sl_type sl0) && success
            then set_buf (splice (sl_buf sl0) 0 data) sl0 else sl0 in
  let s := set_out (remove_out id (v_out s)) (set_slots (set_nth id sl (v_slots s)) s) in
  match sl_chain sl with
  | None => Ok s
  | Some head =>
    let! (m, ok) :=
      if is_in (sl_type sl) && success
      then write_to_guest (v_mem s) (sl_buf sl) 0 (sl_data sl)
      else Ok (v_mem s, true) in
    Ok (put_request_slot id
          (complete_io head (sl_status sl) (if success && ok then S_OK else S_IOERR)
             (set_mem m s)))
  end.

(** backend_thread.rs:425-449: notification of the guest. [event_idx]: the
    negotiated feature; [needs]: the answer of needs_notification (an error there
    counts as true). *)
Definition signal (event_idx needs : bool) (s : vstate) : vstate :=
  let need := if v_pend s then (if event_idx then needs else true) else false in
  if need then set_pend false (set_signals (S (v_signals s)) s) else s.

(** backend_thread.rs:387-452 process_queue: the chains found on the available
    ring, then the completions polled, then the notification.  (A failed
    io_channel.submit() is only logged.) *)
Fixpoint process_chains (l : list chain) (s : vstate) : res vstate :=
  match l with
  | [] => Ok s
  | c :: r => let! s' := process_chain c s in process_chains r s'
  end.

Fixpoint poll_io (l : list (nat * bool * list byte)) (s : vstate) : res vstate :=
  match l with
  | [] => Ok s
  | (id, ok, data) :: r => let! s' := complete_one id ok data s in poll_io r s'
  end.

Definition process_queue (chains : list chain) (dones : list (nat * bool * list byte))
  (event_idx needs : bool) (s : vstate) : res vstate :=
  let! s1 := process_chains chains s in
  let! s2 := poll_io dones s1 in
  Ok (signal event_idx needs s2).

(** The same, one event at a time, with stores by the guest in between. *)
Inductive vevent :=
| EPop (c : chain)
| EDone (id : nat) (success : bool) (data : list byte)
| ESignal (event_idx needs : bool)
| EGuestStore (a : N) (b : byte).

Definition step (s : vstate) (e : vevent) : res vstate :=
  match e with
  | EPop c => process_chain c s
  | EDone id ok data => complete_one id ok data s
  | ESignal ei n => Ok (signal ei n s)
  | EGuestStore a b => Ok (set_mem (gm_upd (v_mem s) a b) s)
  end.

Fixpoint run (s : vstate) (es : list vevent) : res vstate :=
  match es with
  | [] => Ok s
  | e :: r => let! s' := step s e in run s' r
  end.

(** backend_thread.rs:72-116 new: [n] slots of [buf_size] bytes. *)
Definition vinit (m : gmem) (n : nat) (buf_size : N) : vstate :=
  mk_vstate m (repeat (new_slot buf_size) n) [] false 0 [] [].
End Thread.

(** ** Configuration space (backend.rs) *)

(** utils/block.rs:5-34 VirtioBlockConfig, packed, little endian. *)
Record vconfig := mk_vconfig {
  vc_capacity : N; vc_size_max : N; vc_seg_max : N;
  vc_cylinders : N; vc_heads : N; vc_sectors : N;
  vc_blk_size : N; vc_physical_block_exp : N; vc_alignment_offset : N;
  vc_min_io_size : N; vc_opt_io_size : N; vc_writeback : N; vc_unused : N;
  vc_num_queues : N; vc_max_discard_sectors : N; vc_max_discard_seg : N;
  vc_discard_sector_alignment : N; vc_max_write_zeroes_sectors : N;
  vc_max_write_zeroes_seg : N; vc_write_zeroes_may_unmap : N }.

(** ByteValued::as_slice on the packed struct (60 bytes). *)
Definition vconfig_bytes (c : vconfig) : list byte :=
  le_bytes 8 (vc_capacity c) ++ le_bytes 4 (vc_size_max c) ++ le_bytes 4 (vc_seg_max c) ++
  le_bytes 2 (vc_cylinders c) ++ le_bytes 1 (vc_heads c) ++ le_bytes 1 (vc_sectors c) ++
  le_bytes 4 (vc_blk_size c) ++ le_bytes 1 (vc_physical_block_exp c) ++
  le_bytes 1 (vc_alignment_offset c) ++ le_bytes 2 (vc_min_io_size c) ++
  le_bytes 4 (vc_opt_io_size c) ++ le_bytes 1 (vc_writeback c) ++ le_bytes 1 (vc_unused c) ++
  le_bytes 2 (vc_num_queues c) ++ le_bytes 4 (vc_max_discard_sectors c) ++
  le_bytes 4 (vc_max_discard_seg c) ++ le_bytes 4 (vc_discard_sector_alignment c) ++
  le_bytes 4 (vc_max_write_zeroes_sectors c) ++ le_bytes 4 (vc_max_write_zeroes_seg c) ++
  le_bytes 1 (vc_write_zeroes_may_unmap c) ++ [0; 0; 0].

(** backend.rs:50-63: the configuration built at start-up ([as u16] on the
    number of queues). *)
Definition build_vconfig (nsectors seg_size_max seg_count_max num_queues : N) (write_through : bool)
  : vconfig :=
  mk_vconfig nsectors seg_size_max seg_count_max 0 0 0 512 0 0 1 1
    (if write_through then 0 else 1) 0 (num_queues mod 2 ^ 16) 0 0 0 0 0 0.

(** backend.rs:251-282 get_config: the offset is ignored. *)
Definition get_config (c : vconfig) (offset size : N) : list byte :=
  let cb := vconfig_bytes c in
  let n := N.to_nat size in
  let k := Nat.min n (length cb) in
  firstn k cb ++ skipn k (repeat 0 n).
