(** Model of the remote stripe source's worker pool and reconnect logic
    (src/stripe_source/remote.rs). *)
From Coq Require Import List Arith NArith Bool.
Import ListNotations.
From Verif Require Import Base MetadataModel RemoteModel.
Local Open Scope nat_scope.

(** remote.rs:19-36 [MetadataFingerprint]: stripe sector count and stripe count. *)
Definition geometry := (N * nat)%type.
Definition geometry_of (m : metadata) : geometry := (stripe_sector_count m, length (md_headers m)).
Definition geometry_eqb (a b : geometry) : bool := (fst a =? fst b)%N && (snd a =? snd b).

(** The outcome of one [fetch_stripe] call: data, a transport error, another error,
    or a panic. *)
Inductive fetch_out := FData (d : list byte) | FTransport | FOther | FPanic.

(** The outside world: what dialling at time [t] gives (a connection, by number, or
    an error), the metadata a connection reports, and what a fetch over a connection
    at time [t] gives.  Arbitrary functions: any failure pattern, and any sequence of
    different servers behind the address. *)
Record world := mk_world {
  w_dial : nat -> option nat;
  w_meta : nat -> option metadata;
  w_fetch : nat -> nat -> nat -> fetch_out }.

Inductive act := ASleep (ms : N) | ADial (c : option nat) | AFetch (c : nat) (r : fetch_out).
Inductive ferr := ErrTransport | ErrGeometry | ErrOther | ErrPanic.
Inductive fres := ROk (d : list byte) | RErr (e : ferr).

(** remote.rs:43-45. *)
Definition INITIAL_BACKOFF : N := 500.
Definition MAX_BACKOFF : N := 30000.
Definition MAX_ATTEMPTS : nat := 10.

(** remote.rs:83-85: a fresh connection is accepted only with the expected
    fingerprint. *)
Definition accepts (w : world) (expected : geometry) (c : nat) : bool :=
  match w_meta w c with
  | Some m => geometry_eqb (geometry_of m) expected
  | None => false
  end.

(** remote.rs:58-121 [fetch_with_reconnect].  [left] counts the remaining iterations
    of the loop; the result is the log of what was done, the outcome, the connection
    kept by the worker, and the time. *)
Fixpoint attempts (w : world) (expected : geometry) (stripe left attempt client : nat)
    (delay : N) (t : nat) : list act * fres * nat * nat :=
  match left with
  | O => ([], RErr ErrTransport, client, t)
  | S left' =>
    let fetch := fun log client delay t =>
      match w_fetch w t client stripe with
      | FData d => (log ++ [AFetch client (FData d)], ROk d, client, S t)
      | FOther => (log ++ [AFetch client FOther], RErr ErrOther, client, S t)
      | FPanic => (log ++ [AFetch client FPanic], RErr ErrPanic, client, S t)
      | FTransport =>
        let '(log', r, c', t') := attempts w expected stripe left' (S attempt) client delay (S t) in
        (log ++ AFetch client FTransport :: log', r, c', t')
      end in
    match attempt with
    | O => fetch [] client delay t
    | S _ =>
      let sleep := if 1 <? attempt then [ASleep delay] else [] in
      let delay' := if 1 <? attempt then N.min (delay * 2) MAX_BACKOFF else delay in
      match w_dial w t with
      | Some c =>
        if accepts w expected c then fetch (sleep ++ [ADial (Some c)]) c delay' (S t)
        else (sleep ++ [ADial (Some c)], RErr ErrGeometry, client, S t)
      | None =>
        let '(log', r, c', t') := attempts w expected stripe left' (S attempt) client delay' (S t) in
        (sleep ++ ADial None :: log', r, c', t')
      end
    end
  end.
Definition fetch_with_reconnect (w : world) (expected : geometry) (stripe client t : nat) :=
  attempts w expected stripe (S MAX_ATTEMPTS) 0 client INITIAL_BACKOFF t.

(** The source: the request channel, the workers (their connection and the stripe
    they are fetching), the result channel, the buffers waiting (by stripe, with
    their size; a [HashMap]), and the time. *)
Record pool := mk_pool {
  p_queue : list nat;
  p_workers : list (nat * option nat);
  p_results : list (nat * fres);
  p_pending : list (nat * nat);
  p_time : nat }.

(** remote.rs:147-235 [new] (with the check of the device's stripe size); [Err 1]: no
    connection, [Err 2]: no metadata, [Err 3]: other stripe size, [Err 4]: too large. *)
Definition pool_new (w : world) (conns : list nat) (ssc : N) (t : nat) : res (pool * geometry * N) :=
  match conns with
  | [] => Err 1
  | c :: _ =>
    match w_meta w c with
    | None => Err 2
    | Some m =>
      if negb (stripe_sector_count m =? ssc)%N then Err 3
      else
        match remote_sector_count m with
        | Err _ => Err 4
        | Panic => Panic
        | Ok n => Ok (mk_pool [] (map (fun c => (c, None)) conns) [] [] t, geometry_of m, n)
        end
    end
  end.

Definition assoc_remove (k : nat) (l : list (nat * nat)) : list (nat * nat) :=
  filter (fun x => negb (fst x =? k)) l.
Fixpoint assoc_find (k : nat) (l : list (nat * nat)) : option nat :=
  match l with
  | [] => None
  | x :: l' => if fst x =? k then Some (snd x) else assoc_find k l'
  end.

(** remote.rs:239-266 [deliver]: the new contents of a buffer of [len] bytes. *)
Definition deliver (d : list byte) (len : nat) : option (list byte) :=
  if len <? length d then None else Some (d ++ repeat 0%N (len - length d)).

(** remote.rs:280-304 [poll]: completions, with the buffer contents on success. *)
Fixpoint pool_poll (results : list (nat * fres)) (pending : list (nat * nat))
  : list (nat * option (list byte)) * list (nat * nat) :=
  match results with
  | [] => ([], pending)
  | (i, r) :: rest =>
    match assoc_find i pending with
    | None => pool_poll rest pending
    | Some len =>
      let (cs, p) := pool_poll rest (assoc_remove i pending) in
      ((i, match r with ROk d => deliver d len | RErr _ => None end) :: cs, p)
    end
  end.

Inductive pevent :=
| PRequest (stripe len : nat)  (* the caller's [request] with a buffer of [len] bytes *)
| PTake (k : nat)              (* worker [k] takes a request *)
| PFinish (k : nat)            (* worker [k] is done and sends the result *)
| PPoll.                       (* the caller's [poll] *)

(** [request] 270-278, the worker loop 206-219, [poll]; [None]: not enabled. *)
Definition pool_step (w : world) (expected : geometry) (s : pool) (e : pevent)
  : option (pool * list (nat * option (list byte))) :=
  match e with
  | PRequest i len =>
    Some (mk_pool (p_queue s ++ [i]) (p_workers s) (p_results s)
            ((i, len) :: assoc_remove i (p_pending s)) (p_time s), [])
  | PTake k =>
    match nth_error (p_workers s) k, p_queue s with
    | Some (c, None), i :: q =>
      Some (mk_pool q (set_nth k (c, Some i) (p_workers s)) (p_results s) (p_pending s) (p_time s), [])
    | _, _ => None
    end
  | PFinish k =>
    match nth_error (p_workers s) k with
    | Some (c, Some i) =>
      let '(_, r, c', t') := fetch_with_reconnect w expected i c (p_time s) in
      Some (mk_pool (p_queue s) (set_nth k (c', None) (p_workers s)) (p_results s ++ [(i, r)])
              (p_pending s) t', [])
    | _ => None
    end
  | PPoll =>
    let (cs, p) := pool_poll (p_results s) (p_pending s) in
    Some (mk_pool (p_queue s) (p_workers s) [] p (p_time s), cs)
  end.

Fixpoint pool_run (w : world) (expected : geometry) (s : pool) (es : list pevent)
  : option (pool * list (nat * option (list byte))) :=
  match es with
  | [] => Some (s, [])
  | e :: es' =>
    match pool_step w expected s e with
    | None => None
    | Some (s1, cs) =>
      match pool_run w expected s1 es' with
      | None => None
      | Some (s2, cs') => Some (s2, cs ++ cs')
      end
    end
  end.

(** remote.rs:306-308 [busy]. *)
Definition pool_busy (s : pool) : bool := match p_pending s with [] => false | _ => true end.
