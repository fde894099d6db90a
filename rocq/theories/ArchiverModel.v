(** Model of the archiver's main loop, src/archive/archiver.rs, with its buffer
    pool (src/utils/aligned_buffer_pool.rs) and an asynchronous object store.
    Fetch completions and upload completions arrive in any order, one event
    each; any prefix of a run is a run interrupted at that point. *)
From Coq Require Import List Arith NArith Bool.
Import ListNotations.
From Verif Require Import Base MetadataModel CryptModel KeyModel ArchiveModel.

(** archiver.rs:39-85 [new]: what stays fixed during a run.  The random keys and
    nonces are parameters.  [ac_dev st] and [ac_src st] are the bytes a read of
    stripe [st] from the local disk and from the stripe source delivers. *)
Record aconf := mk_aconf {
  ac_count : nat;                               (* stripe_count *)
  ac_headers : list N;                          (* metadata.stripe_headers *)
  ac_ssc : N;                                   (* metadata.stripe_sector_count() *)
  ac_cipher : option (list byte * list byte);   (* block_cipher *)
  ac_comp : compression;
  ac_kek : kek;
  ac_hmac_key : list byte;
  ac_nonce_key : list byte; ac_nonce_hmac : list byte;
  ac_concurrency : nat;
  ac_dev : nat -> list byte;
  ac_src : nat -> list byte
}.

Inductive phase := PLoop | PMeta | PMapping | PDone | PFailed | PPanicked.

(** An upload in progress, and whether the store already shows the object. *)
Record put_op := mk_put { po_name : list byte; po_data : list byte }.

Record astate := mk_astate {
  a_phase : phase;
  a_next : nat;                                  (* next_stripe_id *)
  a_free : list nat;                             (* buffer_pool.available_buffers *)
  a_bufs : list (nat * (nat * bool));            (* stripe_fetch_buffers: stripe, (buffer, data arrived) *)
  a_mem : nat -> list byte;                      (* buffer contents *)
  a_puts : list put_op;                          (* uploads the store has not completed *)
  a_inflight : nat;                              (* inflight_puts *)
  a_seen : list (list byte);                     (* seen_object_keys *)
  a_map : content_map;                           (* stripe_hashes *)
  a_store : store;                               (* objects visible in the store *)
  a_reads : list (nat * bool);                   (* ghost: fetches started, oldest first; true: from the disk *)
  a_started : list put_op                        (* ghost: uploads started, oldest first *)
}.

Definition with_phase (p : phase) (s : astate) : astate :=
  mk_astate p (a_next s) (a_free s) (a_bufs s) (a_mem s) (a_puts s) (a_inflight s) (a_seen s) (a_map s) (a_store s) (a_reads s) (a_started s).

Definition empty_store : store := fun _ => None.
Definition store_put (st : store) (name data : list byte) : store :=
  fun n => if bytes_eqb n name then Some data else st n.

(** Fresh archiver over an empty store. *)
Definition anew (c : aconf) : astate :=
  mk_astate PLoop 0 (seq 0 (ac_concurrency c)) [] (fun _ => []) [] 0 [] [] empty_store [] [].

Inductive aevent :=
| AStart                          (* one pass over lines 104-112 *)
| AFill (st : nat)                (* the fetch of stripe st delivers its data into its buffer *)
| AFetched (st : nat) (ok : bool) (* poll_fetches sees its completion *)
| AStored (i : nat)               (* upload i becomes visible in the store *)
| AUploaded (i : nat) (ok : bool) (* poll_uploads / put_object sees the completion of upload i *)
| ATimeout                        (* put_object gives up waiting; the upload may still land *)
| ADrained.                       (* lines 118-125: everything drained, start the manifest *)

Section Archiver.
Variable P : prims.
Variable c : aconf.

(** archiver.rs:266-279 [stripe_written], [stripe_fetched],
    [stripe_exists_in_source]: [stripe_headers[stripe_id]] may panic. *)
Definition header (st : nat) : res N := index (ac_headers c) st.
Definition flag (f h : N) : bool := negb (N.land h f =? 0)%N.

(** archiver.rs:262-264 [stripe_should_be_archived]. *)
Definition should_be_archived (h : N) : bool := flag FLAG_WRITTEN h || flag FLAG_HAS_SOURCE h.

(** archiver.rs:146-161 [start_fetch_stripe]: where the stripe is read from.  A
    submission error aborts the run; it is covered by [AFetched st false]. *)
Definition from_disk (h : N) : bool := flag FLAG_WRITTEN h || flag FLAG_FETCHED h.

Definition stripe_bytes (st : nat) (h : N) : list byte :=
  if from_disk h then ac_dev c st else ac_src c st.

Fixpoint remove_buf (l : list (nat * (nat * bool))) (st : nat) : list (nat * (nat * bool)) :=
  match l with
  | [] => []
  | e :: r => if fst e =? st then r else e :: remove_buf r st
  end.
Fixpoint find_buf (l : list (nat * (nat * bool))) (st : nat) : option (nat * bool) :=
  match l with
  | [] => None
  | e :: r => if fst e =? st then Some (snd e) else find_buf r st
  end.

Definition seen_key (l : list (list byte)) (k : list byte) : bool := existsb (bytes_eqb k) l.

(** archiver.rs:192-235 [start_upload_stripe], for a stripe whose buffer is [b]. *)
Definition start_upload (st b : nat) (s : astate) : astate :=
  let data := a_mem s b in
  let bufs := remove_buf (a_bufs s) st in
  let free := a_free s ++ [b] in      (* aligned_buffer_pool.rs:39-60 return_buffer *)
  if is_zero_stripe data then
    mk_astate (a_phase s) (a_next s) free bufs (a_mem s) (a_puts s) (a_inflight s) (a_seen s)
      (map_insert (a_map s) st SZero) (a_store s) (a_reads s) (a_started s)
  else
    match stripe_object P (ac_cipher c) (ac_comp c) (ac_ssc c) st data with
    | Err _ => mk_astate PFailed (a_next s) (a_free s) bufs (a_mem s) (a_puts s) (a_inflight s)
                 (a_seen s) (a_map s) (a_store s) (a_reads s) (a_started s)
    | Panic => mk_astate PPanicked (a_next s) (a_free s) bufs (a_mem s) (a_puts s) (a_inflight s)
                 (a_seen s) (a_map s) (a_store s) (a_reads s) (a_started s)
    | Ok object =>
      let h := sha P object in
      let m := map_insert (a_map s) st (SDigest h) in
      let key := object_key h in
      if seen_key (a_seen s) key then
        mk_astate (a_phase s) (a_next s) free bufs (a_mem s) (a_puts s) (a_inflight s) (a_seen s)
          m (a_store s) (a_reads s) (a_started s)
      else
        mk_astate (a_phase s) (a_next s) free bufs (a_mem s) (a_puts s ++ [mk_put key object])
          (S (a_inflight s)) (key :: a_seen s) m (a_store s) (a_reads s) (a_started s ++ [mk_put key object])
    end.

(** archiver.rs:323-341 [archive_metadata]. *)
Definition archive_metadata_of : res archive_metadata :=
  let! ek := match ac_cipher c with
             | None => Ok None
             | Some k => let! e := encrypted_key (seal P) (ac_nonce_key c) (ac_kek c) k in Ok (Some e)
             end in
  let! hk := encrypt_key_data (seal P) (ac_nonce_hmac c) (ac_kek c) (ac_hmac_key c) in
  let m := mk_ameta ARCHIVE_FORMAT_VERSION (ac_ssc c) ek (ac_comp c) hk [] in
  Ok (mk_ameta ARCHIVE_FORMAT_VERSION (ac_ssc c) ek (ac_comp c) hk
        (mac P (ac_hmac_key c) (metadata_hmac_input m))).

Fixpoint remove_nth {A} (i : nat) (l : list A) : list A :=
  match l, i with
  | [], _ => []
  | _ :: r, O => r
  | x :: r, S i' => x :: remove_nth i' r
  end.

(** Putting an object synchronously (archive/mod.rs:31-48 [put_object]) starts
    an upload and waits for its completion. *)
Definition start_put (p : phase) (name data : list byte) (s : astate) : astate :=
  mk_astate p (a_next s) (a_free s) (a_bufs s) (a_mem s) (a_puts s ++ [mk_put name data]) (a_inflight s)
    (a_seen s) (a_map s) (a_store s) (a_reads s) (a_started s ++ [mk_put name data]).

Definition set_puts (puts : list put_op) (inflight : nat) (st : store) (s : astate) : astate :=
  mk_astate (a_phase s) (a_next s) (a_free s) (a_bufs s) (a_mem s) puts inflight (a_seen s) (a_map s) st (a_reads s) (a_started s).

Definition astep (s : astate) (e : aevent) : option astate :=
  match e with
  | AStart =>
    match a_phase s with
    | PLoop =>
      if a_next s <? ac_count c then
        match header (a_next s) with
        | Panic | Err _ => Some (with_phase PPanicked s)
        | Ok h =>
          if should_be_archived h then
            match a_free s with       (* archiver.rs:134-144 maybe_start_next_stripe *)
            | [] => Some s
            | b :: free =>
              Some (mk_astate PLoop (S (a_next s)) free (a_bufs s ++ [(a_next s, (b, false))]) (a_mem s)
                      (a_puts s) (a_inflight s) (a_seen s) (a_map s) (a_store s)
                      (a_reads s ++ [(a_next s, from_disk h)]) (a_started s))
            end
          else Some (mk_astate PLoop (S (a_next s)) (a_free s) (a_bufs s) (a_mem s) (a_puts s)
                       (a_inflight s) (a_seen s) (a_map s) (a_store s) (a_reads s) (a_started s))
        end
      else None
    | _ => None
    end
  | AFill st =>
    match a_phase s, find_buf (a_bufs s) st, header st with
    | PLoop, Some (b, false), Ok h =>
      Some (mk_astate PLoop (a_next s) (a_free s)
              (remove_buf (a_bufs s) st ++ [(st, (b, true))])
              (upd (a_mem s) b (stripe_bytes st h)) (a_puts s) (a_inflight s) (a_seen s) (a_map s)
              (a_store s) (a_reads s) (a_started s))
    | _, _, _ => None
    end
  | AFetched st ok =>                (* archiver.rs:163-178 poll_fetches *)
    match a_phase s, find_buf (a_bufs s) st with
    | PLoop, Some (b, filled) =>
      if ok then if filled then Some (start_upload st b s) else None
      else Some (with_phase PFailed s)
    | _, _ => None
    end
  | AStored i =>
    match nth_error (a_puts s) i with
    | Some p => Some (set_puts (a_puts s) (a_inflight s) (store_put (a_store s) (po_name p) (po_data p)) s)
    | None => None
    end
  | AUploaded i ok =>
    match nth_error (a_puts s) i with
    | Some p =>
      let st := if ok then store_put (a_store s) (po_name p) (po_data p) else a_store s in
      match a_phase s with
      | PLoop =>                     (* archiver.rs:237-252 poll_uploads *)
        if ok then
          match a_inflight s with
          | O => Some (with_phase PFailed s)
          | S k => Some (set_puts (remove_nth i (a_puts s)) k st s)
          end
        else Some (with_phase PFailed (set_puts (remove_nth i (a_puts s)) (a_inflight s) st s))
      | PMeta =>                     (* archiver.rs:125-126, 285-313 *)
        if bytes_eqb (po_name p) META_NAME then
          if ok then
            match serialize_stripe_mapping P (a_map s) (ac_hmac_key c) (ac_cipher c) with
            | Ok b => Some (start_put PMapping MAPPING_NAME b (set_puts (remove_nth i (a_puts s)) (a_inflight s) st s))
            | Err _ => Some (with_phase PFailed s)
            | Panic => Some (with_phase PPanicked s)
            end
          else Some (with_phase PFailed (set_puts (remove_nth i (a_puts s)) (a_inflight s) st s))
        else Some (set_puts (remove_nth i (a_puts s)) (a_inflight s) st s)
      | PMapping =>
        if bytes_eqb (po_name p) MAPPING_NAME then
          Some (with_phase (if ok then PDone else PFailed)
                  (set_puts (remove_nth i (a_puts s)) (a_inflight s) st s))
        else Some (set_puts (remove_nth i (a_puts s)) (a_inflight s) st s)
      | _ => None
      end
    | None => None
    end
  | ATimeout =>                      (* archive/mod.rs:45-47 *)
    match a_phase s with
    | PMeta | PMapping => Some (with_phase PFailed s)
    | _ => None
    end
  | ADrained =>
    match a_phase s with
    | PLoop =>
      if (ac_count c <=? a_next s) && (match a_bufs s with [] => true | _ => false end) && (a_inflight s =? 0)
      then
        (* archiver.rs:124: the mapping is serialised before metadata.json is put *)
        match serialize_stripe_mapping P (a_map s) (ac_hmac_key c) (ac_cipher c) with
        | Err _ => Some (with_phase PFailed s)
        | Panic => Some (with_phase PPanicked s)
        | Ok _ =>
          match archive_metadata_of with
          | Ok m => Some (start_put PMeta META_NAME (json P m) s)
          | Err _ => Some (with_phase PFailed s)
          | Panic => Some (with_phase PPanicked s)
          end
        end
      else None
    | _ => None
    end
  end.

Fixpoint arun (s : astate) (es : list aevent) : option astate :=
  match es with
  | [] => Some s
  | e :: r => match astep s e with None => None | Some s1 => arun s1 r end
  end.

End Archiver.
