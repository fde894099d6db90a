(** The S3 object store: key prefixes, the request queue and its worker threads
    (src/archive/s3_store.rs, src/archive/s3_store/s3_store_workers.rs).

    Each request carries a ghost number, counted from 0 in the order of the calls;
    the code has no such number, it only carries the name. *)
From Coq Require Import List Arith NArith Bool.
From Verif Require Import Base ArchiveModel ArchiverModel.
Import ListNotations.

Definition SLASH : byte := 47%N.

(** ** Keys *)

(** str::trim_matches('/'), s3_store.rs:55. *)
Fixpoint trim_start_slash (l : list byte) : list byte :=
  match l with b :: r => if (b =? SLASH)%N then trim_start_slash r else l | [] => [] end.
Definition trim_slashes (l : list byte) : list byte :=
  rev (trim_start_slash (rev (trim_start_slash l))).

(** s3_store.rs:54-61: the prefix in use. *)
Definition normalized_prefix (prefix : option (list byte)) : option (list byte) :=
  match prefix with
  | None => None
  | Some p => match trim_slashes p with [] => None | q => Some (q ++ [SLASH]) end
  end.

(** s3_store.rs:176-182. *)
Definition key_with_prefix (prefix : option (list byte)) (name : list byte) : list byte :=
  match prefix with Some p => p ++ name | None => name end.

(** s3_store_workers.rs:46-53: how many workers are started. *)
Definition worker_count (threads : nat) : nat :=
  if threads <? 1 then 1 else if 128 <? threads then 128 else threads.

(** ** Requests and workers *)

(** What the caller asks for (ArchiveStore::start_put_object, start_get_object). *)
Inductive call := Put (name data : list byte) | Get (name : list byte).
Definition call_name (c : call) : list byte := match c with Put n _ => n | Get n => n end.

(** What is reported back: whether a put succeeded; what a get returned, if it
    succeeded. *)
Inductive outcome := OPut (ok : bool) | OGet (data : option (list byte)).

(** s3_store.rs:15-35: S3Request (with its key) and S3Result. *)
Record s3_request := mk_req { rq_id : nat; rq_call : call; rq_key : list byte }.
Record s3_result := mk_result { rs_id : nat; rs_name : list byte; rs_out : outcome }.

(** What a worker is doing: its request, whether it has taken effect, and, for a
    get, what the bucket held then. *)
Record job := mk_job { jb_req : s3_request; jb_seen : option (option (list byte)) }.

Record s3 := mk_s3 {
  sp_prefix : option (list byte);       (* normalised *)
  sp_workers : nat;
  s3_alive : nat -> bool;               (* the worker thread runs *)
  s3_queue : list s3_request;           (* request channel, oldest first *)
  s3_jobs : nat -> option job;          (* what each worker is doing *)
  s3_bucket : store;                    (* the bucket, by key *)
  s3_results : list s3_result;          (* result channel, oldest first *)
  s3_puts : list s3_result;             (* finished_puts *)
  s3_gets : list s3_result;             (* finished_gets *)
  s3_next : nat }.

(** S3Store::new, s3_store.rs:48-79. *)
Definition s3_new (prefix : option (list byte)) (threads : nat) (bucket : store) : s3 :=
  mk_s3 (normalized_prefix prefix) (worker_count threads) (fun w => w <? worker_count threads)
    [] (fun _ => None) bucket [] [] [] 0.

Inductive sevent :=
| SCall (c : call)          (* start_put_object / start_get_object *)
| STake (w : nat)           (* worker w receives the oldest request, s3_store_workers.rs:86 *)
| SEffect (w : nat)         (* the bucket performs worker w's request *)
| SDone (w : nat) (ok : bool)  (* worker w's request ends; with an error unless ok *)
| SPollPuts | SPollGets
| SDie (w : nat)            (* worker w ends: no runtime (77-84), or a panic *)
| SOther (key : list byte) (data : option (list byte)).  (* somebody else changes the bucket *)

(** Observations: the calls and the answers handed out by the polls. *)
Inductive sobs := Called (id : nat) (c : call) | Answered (id : nat) (name : list byte) (o : outcome).

Definition error_of (c : call) : outcome := match c with Put _ _ => OPut false | Get _ => OGet None end.

Definition some_alive (s : s3) : bool := existsb (s3_alive s) (seq 0 (sp_workers s)).

Definition is_put (r : s3_result) : bool := match rs_out r with OPut _ => true | OGet _ => false end.

(** drain_results, s3_store.rs:81-92. *)
Definition drain_results (s : s3) : s3 :=
  mk_s3 (sp_prefix s) (sp_workers s) (s3_alive s) (s3_queue s) (s3_jobs s) (s3_bucket s) []
    (s3_puts s ++ filter is_put (s3_results s))
    (s3_gets s ++ filter (fun r => negb (is_put r)) (s3_results s)) (s3_next s).

Definition answers (rs : list s3_result) : list sobs :=
  map (fun r => Answered (rs_id r) (rs_name r) (rs_out r)) rs.

Definition set_jobs (jobs : nat -> option job) (s : s3) : s3 :=
  mk_s3 (sp_prefix s) (sp_workers s) (s3_alive s) (s3_queue s) jobs (s3_bucket s) (s3_results s)
    (s3_puts s) (s3_gets s) (s3_next s).
Definition set_bucket (b : store) (s : s3) : s3 :=
  mk_s3 (sp_prefix s) (sp_workers s) (s3_alive s) (s3_queue s) (s3_jobs s) b (s3_results s)
    (s3_puts s) (s3_gets s) (s3_next s).

Definition bucket_set (b : store) (key : list byte) (v : option (list byte)) : store :=
  fun k => if bytes_eqb k key then v else b k.

(** One step.  Events that cannot happen leave the state alone.

    [SCall], s3_store.rs:109-161: with no worker left the send fails and the error is
    recorded as finished.  [SEffect]: a put changes the bucket, a get reads it; with
    the SDK's retries this can happen more than once.  [SDone w true]: the operation
    succeeded, so it has taken effect; a get of a missing object is an error
    (upload_object and fetch_object, s3_store_workers.rs:119-160), and the result is
    sent (95-117).  [SDie]: when the last worker is gone, so are the requests in the
    channel. *)
Definition s3_step (s : s3) (e : sevent) : s3 * list sobs :=
  match e with
  | SCall c =>
      let id := s3_next s in
      if some_alive s then
        (mk_s3 (sp_prefix s) (sp_workers s) (s3_alive s)
           (s3_queue s ++ [mk_req id c (key_with_prefix (sp_prefix s) (call_name c))])
           (s3_jobs s) (s3_bucket s) (s3_results s) (s3_puts s) (s3_gets s) (S id),
         [Called id c])
      else
        let r := mk_result id (call_name c) (error_of c) in
        (mk_s3 (sp_prefix s) (sp_workers s) (s3_alive s) (s3_queue s) (s3_jobs s) (s3_bucket s) (s3_results s)
           (if is_put r then s3_puts s ++ [r] else s3_puts s)
           (if is_put r then s3_gets s else s3_gets s ++ [r]) (S id),
         [Called id c])
  | STake w =>
      if s3_alive s w then
        match s3_jobs s w, s3_queue s with
        | None, r :: q =>
            (mk_s3 (sp_prefix s) (sp_workers s) (s3_alive s) q (upd (s3_jobs s) w (Some (mk_job r None)))
               (s3_bucket s) (s3_results s) (s3_puts s) (s3_gets s) (s3_next s), [])
        | _, _ => (s, [])
        end
      else (s, [])
  | SEffect w =>
      match s3_jobs s w with
      | Some j =>
          match rq_call (jb_req j) with
          | Put _ data =>
              (set_bucket (bucket_set (s3_bucket s) (rq_key (jb_req j)) (Some data))
                 (set_jobs (upd (s3_jobs s) w (Some (mk_job (jb_req j) (Some (Some data))))) s), [])
          | Get _ => (set_jobs (upd (s3_jobs s) w (Some (mk_job (jb_req j) (Some (s3_bucket s (rq_key (jb_req j))))))) s, [])
          end
      | None => (s, [])
      end
  | SDone w ok =>
      match s3_jobs s w with
      | Some j =>
          let r := jb_req j in
          let '(bucket, out) :=
            match rq_call r with
            | Put _ data =>
                (match ok, jb_seen j with
                 | true, None => bucket_set (s3_bucket s) (rq_key r) (Some data)
                 | _, _ => s3_bucket s
                 end, OPut ok)
            | Get _ => (s3_bucket s,
                        OGet (if ok then match jb_seen j with Some v => v | None => s3_bucket s (rq_key r) end else None))
            end in
          (mk_s3 (sp_prefix s) (sp_workers s) (s3_alive s) (s3_queue s) (upd (s3_jobs s) w None) bucket
             (s3_results s ++ [mk_result (rq_id r) (call_name (rq_call r)) out])
             (s3_puts s) (s3_gets s) (s3_next s), [])
      | None => (s, [])
      end
  | SPollPuts =>
      let s := drain_results s in
      (mk_s3 (sp_prefix s) (sp_workers s) (s3_alive s) (s3_queue s) (s3_jobs s) (s3_bucket s) (s3_results s)
         [] (s3_gets s) (s3_next s), answers (s3_puts s))
  | SPollGets =>
      let s := drain_results s in
      (mk_s3 (sp_prefix s) (sp_workers s) (s3_alive s) (s3_queue s) (s3_jobs s) (s3_bucket s) (s3_results s)
         (s3_puts s) [] (s3_next s), answers (s3_gets s))
  | SDie w =>
      let alive := upd (s3_alive s) w false in
      (mk_s3 (sp_prefix s) (sp_workers s) alive
         (if existsb alive (seq 0 (sp_workers s)) then s3_queue s else [])
         (upd (s3_jobs s) w None) (s3_bucket s) (s3_results s) (s3_puts s) (s3_gets s) (s3_next s), [])
  | SOther key data => (set_bucket (bucket_set (s3_bucket s) key data) s, [])
  end.

Fixpoint s3_run (s : s3) (es : list sevent) : s3 * list sobs :=
  match es with
  | [] => (s, [])
  | e :: r => let (s1, o1) := s3_step s e in let (s2, o2) := s3_run s1 r in (s2, o1 ++ o2)
  end.
