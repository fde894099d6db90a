(** Model of the archive stripe source with several requests in flight
    (src/stripe_source/archive.rs) and of the export of an archive to a raw image
    (src/export_archive.rs).  The object store answers outstanding gets in any
    order, with any bytes or an error. *)
From Coq Require Import List Arith NArith Bool.
Import ListNotations.
From Verif Require Import Base MetadataModel CryptModel KeyModel ArchiveModel.

(** stripe_source/archive.rs:17-21 [PendingRequest], with its key in
    [pending_requests].  A request is a stripe and the name of its buffer. *)
Record pending := mk_pending {
  pr_name : list byte; pr_stripes : list (nat * nat); pr_sha : list byte }.

(** archive.rs:23-34 [ArchiveStripeSource]: the mutable part. *)
Record asource := mk_asource {
  q_pending : list pending;                  (* pending_requests *)
  q_finished : list (nat * nat * bool);      (* finished_requests; the buffer is a ghost *)
  q_mem : nat -> list byte;                  (* contents of the buffers *)
  q_gets : list (list byte)                  (* the store's unanswered gets *)
}.

Definition q_new (mem : nat -> list byte) : asource := mk_asource [] [] mem [].

(** The requests not yet answered. *)
Definition q_outstanding (s : asource) : list (nat * nat) :=
  flat_map pr_stripes (q_pending s) ++ map fst (q_finished s).

Definition completion := (list byte * option (list byte))%type.

Section Source.
Variable P : prims.
Variable src : source.

(** archive.rs:114-117: add the request to a pending fetch of the same object. *)
Fixpoint join_pending (l : list pending) (name : list byte) (x : nat * nat) : option (list pending) :=
  match l with
  | [] => None
  | p :: r =>
    if bytes_eqb (pr_name p) name
    then Some (mk_pending (pr_name p) (pr_stripes p ++ [x]) (pr_sha p) :: r)
    else match join_pending r name x with Some r' => Some (p :: r') | None => None end
  end.

(** archive.rs:107-129 [start_fetch_stripe]. *)
Definition start_fetch_stripe (s : asource) (i b : nat) (h : list byte) : asource :=
  let name := object_key h in
  match join_pending (q_pending s) name (i, b) with
  | Some l => mk_asource l (q_finished s) (q_mem s) (q_gets s)
  | None => mk_asource (q_pending s ++ [mk_pending name [(i, b)] h]) (q_finished s) (q_mem s)
              (q_gets s ++ [name])
  end.

(** archive.rs:214-232 [request]. *)
Definition q_request (s : asource) (i b : nat) : asource :=
  match map_get (s_map src) i with
  | Some (SDigest h) => start_fetch_stripe s i b h
  | Some SZero | None =>
    mk_asource (q_pending s) (q_finished s ++ [(i, b, true)])
      (upd (q_mem s) b (repeat 0%N (length (q_mem s b)))) (q_gets s)
  end.

(** archive.rs:131-142 [finish_pending_request]. *)
Fixpoint finish_pending_request (s : asource) (xs : list (nat * nat)) (data h : list byte) : res asource :=
  match xs with
  | [] => Ok s
  | (i, b) :: r =>
    match finish_stripe_fetch P (s_cipher src) (s_comp src) (s_ssc src) i data h (length (q_mem s b)) with
    | Panic => Panic
    | Ok d => finish_pending_request
                (mk_asource (q_pending s) (q_finished s ++ [(i, b, true)]) (upd (q_mem s) b d) (q_gets s)) r data h
    | Err _ => finish_pending_request
                (mk_asource (q_pending s) (q_finished s ++ [(i, b, false)]) (q_mem s) (q_gets s)) r data h
    end
  end.

(** HashMap::remove. *)
Fixpoint take_pending (l : list pending) (name : list byte) : option (pending * list pending) :=
  match l with
  | [] => None
  | p :: r =>
    if bytes_eqb (pr_name p) name then Some (p, r)
    else match take_pending r name with Some (q, r') => Some (q, p :: r') | None => None end
  end.

(** archive.rs:236-255: one completed get. *)
Definition q_complete (s : asource) (c : completion) : res asource :=
  match take_pending (q_pending s) (fst c) with
  | None => Ok s
  | Some (p, rest) =>
    let s1 := mk_asource rest (q_finished s) (q_mem s) (q_gets s) in
    match snd c with
    | Some data => finish_pending_request s1 (pr_stripes p) data (pr_sha p)
    | None => Ok (mk_asource rest (q_finished s ++ map (fun x => (x, false)) (pr_stripes p)) (q_mem s) (q_gets s))
    end
  end.

Fixpoint q_completes (s : asource) (cs : list completion) : res asource :=
  match cs with
  | [] => Ok s
  | c :: r => let! s1 := q_complete s c in q_completes s1 r
  end.

(** The store answers the gets named in [cs]: each must be outstanding. *)
Fixpoint remove_name (l : list (list byte)) (n : list byte) : option (list (list byte)) :=
  match l with
  | [] => None
  | x :: r => if bytes_eqb x n then Some r
              else match remove_name r n with Some r' => Some (x :: r') | None => None end
  end.
Fixpoint answer_gets (l : list (list byte)) (cs : list completion) : option (list (list byte)) :=
  match cs with
  | [] => Some l
  | c :: r => match remove_name l (fst c) with Some l' => answer_gets l' r | None => None end
  end.

(** archive.rs:234-257 [poll], when the store has completed the gets [cs].  [None]:
    the store cannot do that. *)
Definition q_poll (s : asource) (cs : list completion) : option (res (asource * list (nat * nat * bool))) :=
  match answer_gets (q_gets s) cs with
  | None => None
  | Some gets =>
    Some (let! s1 := q_completes (mk_asource (q_pending s) (q_finished s) (q_mem s) gets) cs in
          Ok (mk_asource (q_pending s1) [] (q_mem s1) (q_gets s1), q_finished s1))
  end.

(** archive.rs:259-261 [busy]. *)
Definition q_busy (s : asource) : bool :=
  negb (match q_pending s with [] => true | _ => false end) ||
  negb (match q_finished s with [] => true | _ => false end).

(** Histories of calls.  A caller does not hand over a buffer that belongs to an
    unanswered request. *)
Inductive qevent := QRequest (i b : nat) | QPoll (cs : list completion).

Fixpoint qrun (s : asource) (es : list qevent) : option (asource * list (nat * nat * bool)) :=
  match es with
  | [] => Some (s, [])
  | QRequest i b :: r =>
    if existsb (fun x => snd x =? b) (q_outstanding s) then None
    else qrun (q_request s i b) r
  | QPoll cs :: r =>
    match q_poll s cs with
    | Some (Ok (s1, out)) =>
      match qrun s1 r with Some (s2, outs) => Some (s2, out ++ outs) | None => None end
    | _ => None
    end
  end.

(** ** export_archive.rs *)

Definition MAX_FETCHES := 16.                                     (* export_archive.rs:17 *)
Definition wrap64 (x : N) : N := (x mod 2 ^ 64)%N.

(** archive.rs:262-268 as u64 arithmetic, export_archive.rs:25-40 (release builds
    wrap on overflow). *)
Definition x_sectors : N := wrap64 (source_sector_count src).
Definition x_total : N := wrap64 (x_sectors * 512).
Definition x_count : nat := N.to_nat ((x_sectors + (s_ssc src - 1)) / s_ssc src).
Definition x_size : nat := N.to_nat (s_ssc src) * 512.

(** The state of the loop, export_archive.rs:48-51.  [in_flight] maps a stripe to
    a buffer; the buffer made for stripe [i] is named [i]. *)
Record xstate := mk_x {
  x_next : nat; x_written : nat; x_inflight : list nat; x_file : list byte; x_src : asource }.

Inductive xres := XMore (x : xstate) | XDone (file : list byte) | XFailed | XPanicked.

(** export_archive.rs:55-67: the inner loop; [fuel] is at least the number of
    stripes left. *)
Fixpoint x_fill (fuel : nat) (x : xstate) : xstate :=
  match fuel with
  | O => x
  | S f =>
    if (length (x_inflight x) <? MAX_FETCHES) && (x_next x <? x_count) then
      let i := x_next x in
      if negb (has_stripe src i)
      then x_fill f (mk_x (S i) (S (x_written x)) (x_inflight x) (x_file x) (x_src x))
      else
        let q := x_src x in
        let q1 := mk_asource (q_pending q) (q_finished q) (upd (q_mem q) i (repeat 0%N x_size)) (q_gets q) in
        x_fill f (mk_x (S i) (x_written x) (x_inflight x ++ [i]) (x_file x) (q_request q1 i i))
    else x
  end.

(** seek + write_all at an offset inside the file (73-76). *)
Definition file_write (f : list byte) (off : nat) (d : list byte) : list byte := splice f off d.

(** export_archive.rs:71-86. *)
Fixpoint x_drain (x : xstate) (out : list (nat * nat * bool)) : option xstate :=
  match out with
  | [] => Some x
  | (i, _, ok) :: r =>
    if negb ok then None
    else if existsb (Nat.eqb i) (x_inflight x)
    then x_drain (mk_x (x_next x) (S (x_written x)) (filter (fun j => negb (j =? i)) (x_inflight x))
                   (file_write (x_file x) (i * x_size) (q_mem (x_src x) i)) (x_src x)) r
    else x_drain x r
  end.

(** One pass of the loop, 53-97: the store completes the gets [cs] at line 70, or a
    file operation fails (76-80). *)
Inductive xevent := XPass (cs : list completion) | XIoError.

Definition x_pass (x : xstate) (e : xevent) : option xres :=
  match e with
  | XIoError => Some XFailed
  | XPass cs =>
    let x1 := x_fill x_count x in
    match q_poll (x_src x1) cs with
    | None => None
    | Some (Err _) | Some Panic => Some XPanicked
    | Some (Ok (q, out)) =>
      match x_drain (mk_x (x_next x1) (x_written x1) (x_inflight x1) (x_file x1) q) out with
      | None => Some XFailed
      | Some x2 => Some (if x_written x2 <? x_count then XMore x2 else XDone (x_file x2))
      end
    end
  end.

(** export_archive.rs:20-51: the start of the export of an opened archive. *)
Definition x_start : xres :=
  if (x_sectors =? 0)%N then XDone []
  else XMore (mk_x 0 0 [] (repeat 0%N (N.to_nat x_total)) (q_new (fun _ => []))).

Fixpoint x_run (r : xres) (es : list xevent) : option xres :=
  match es with
  | [] => Some r
  | e :: es' =>
    match r with
    | XMore x => match x_pass x e with Some r' => x_run r' es' | None => None end
    | _ => None
    end
  end.

End Source.
