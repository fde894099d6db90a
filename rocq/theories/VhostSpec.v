(** What the vhost properties talk about, without reference to how the backend
    works: which descriptor chains are block requests, what a list of guest
    segments holds, and the contract of the I/O channel. *)
From Coq Require Import List NArith Arith Bool.
From Verif Require Import Base VhostModel.
Import ListNotations.
Local Open Scope N_scope.

(** The bytes of guest memory at a list of (address, length) segments, in order. *)
Definition seg_contents (m : gmem) (segs : list (N * N)) : list byte :=
  flat_map (fun '(a, n) => map m (range a (N.to_nat n))) segs.

Definition total_len (segs : list (N * N)) : N :=
  fold_right (fun '(_, n) t => n + t) 0 segs.

Definition in_seg (x : N) (s : N * N) : Prop := fst s <= x < fst s + snd s.
Definition in_segs (x : N) (segs : list (N * N)) : Prop := exists s, In s segs /\ in_seg x s.

(** No address belongs to two of the segments. *)
Fixpoint segs_disjoint (segs : list (N * N)) : Prop :=
  match segs with
  | [] => True
  | s :: r => (forall x, in_seg x s -> ~ in_segs x r) /\ segs_disjoint r
  end.

Definition segs_valid (valid : N -> bool) (segs : list (N * N)) : Prop :=
  forall x, in_segs x segs -> valid x = true.

(** Memory is the same except possibly at the addresses satisfying [P]. *)
Definition same_except (P : N -> Prop) (m m' : gmem) : Prop :=
  forall x, ~ P x -> m' x = m x.

(** A block request as the virtio specification lays it out: a device-readable
    header, data descriptors, a device-writable status byte. *)
Record block_request (valid : N -> bool) (m : gmem) (c : chain) (rq : request)
  (head : desc) (datas : list desc) (st : desc) : Prop := {
  br_layout : exists unreachable, c_descs c = head :: datas ++ st :: unreachable;
  br_linked : Forall (fun d => d_has_next d = true) (head :: datas);
  br_last : d_has_next st = false;
  br_header_readable : d_write_only head = false;
  br_header_mapped : forall i, i < 16 -> valid (d_addr head + i) = true;
  br_type : rq_type rq = rtype_of (le_val (map m (range (d_addr head) 4)));
  br_sector : rq_sector rq = le_val (map m (range (d_addr head + 8) 8));
  br_flush : rq_type rq = TFlush -> rq_sector rq = 0;
  br_data : rq_data rq = map (fun d => (d_addr d, d_len d)) datas;
  br_writable : rq_type rq = TIn -> Forall (fun d => d_write_only d = true) datas;
  br_status : rq_status rq = d_addr st;
  br_status_writable : d_write_only st = true;
  br_status_len : 1 <= d_len st;
  br_status_mapped : valid (d_addr st) = true }.

(** What the backend may assume of its I/O channel: it reports only identifiers
    handed to it and not yet reported, and a successful read has filled the
    requested part of the buffer. *)
Definition channel_contract (s : vstate) (e : vevent) : Prop :=
  match e with
  | EDone id ok data =>
    In id (v_out s) /\
    (ok = true -> forall sl, nth_error (v_slots s) id = Some sl ->
       sl_type sl = TIn -> N.of_nat (length data) = sl_reqlen sl)
  | _ => True
  end.

Definition chain_of (e : vevent) : list N :=
  match e with EPop c => [c_head c] | _ => [] end.

(** Head indices taken from the available ring, in order. *)
Definition popped (es : list vevent) : list N := flat_map chain_of es.

(** Head indices of the requests the channel still works on. *)
Definition in_flight (s : vstate) : list N :=
  flat_map (fun sl => if sl_used sl then match sl_chain sl with Some h => [h] | None => [] end else [])
    (v_slots s).

Section Runs.
Variable valid : N -> bool.
Variable qsize : N.
Variable did : list byte.

(** Every event of the run satisfies [P] in the state it happens in. *)
Fixpoint along (P : vstate -> vevent -> Prop) (s : vstate) (es : list vevent) : Prop :=
  match es with
  | [] => True
  | e :: r => P s e /\ (forall s', step valid qsize did s e = Ok s' -> along P s' r)
  end.

(** Guests that stay inside the limits: fewer than 2^32 data bytes in a request,
    and a data descriptor for the device id. *)
Definition within_limits (s : vstate) (e : vevent) : Prop :=
  match e with
  | EPop c => forall rq, parse valid (v_mem s) c = Ok rq ->
      total_len (rq_data rq) < 2 ^ 32 /\ (rq_type rq = TGetId -> rq_data rq <> [])
  | _ => True
  end.
End Runs.

(** States a backend thread can be in. *)
Definition reachable (valid : N -> bool) (qsize : N) (did : list byte) (s : vstate) : Prop :=
  exists m n b es, along valid qsize did channel_contract (vinit m n b) es /\
    run valid qsize did (vinit m n b) es = Ok s.

(** The chain is not a block request. *)
Definition rejected (valid : N -> bool) (s : vstate) (e : vevent) : Prop :=
  exists c t, e = EPop c /\ parse valid (v_mem s) c = Err t.

(** The events that make the backend thread panic: a device-id request without a
    data descriptor; a write request with 2^32 data bytes or more, in whole
    sectors; and the successful end of a read whose data descriptors reach past
    the end of the buffer the data was read into, if the stores before that point
    succeed.  (A buffer is smaller than 2^32 bytes, and as large as the length of
    its request modulo 2^32.) *)
Definition crashes (valid : N -> bool) (s : vstate) (e : vevent) : Prop :=
  match e with
  | EPop c => exists rq head datas st, block_request valid (v_mem s) c rq head datas st /\
      ((rq_type rq = TGetId /\ datas = []) \/
       (rq_type rq = TOut /\ 2 ^ 32 <= total_len (rq_data rq) /\ total_len (rq_data rq) mod 512 = 0))
  | EDone id success _ => success = true /\ exists sl before a n after,
      nth_error (v_slots s) id = Some sl /\ sl_type sl = TIn /\
      sl_data sl = before ++ (a, n) :: after /\ segs_valid valid before /\
      N.of_nat (length (sl_buf sl)) < total_len before + n
  | _ => False
  end.
