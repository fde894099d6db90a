(** Synchronous waits on asynchronous requests: wait_for_completion
    (src/block_device/wait_for_completion.rs), wait_for_stripe
    (src/stripe_source/wait.rs), put_object and get_object (src/archive/mod.rs).

    All four start or have started a request known by a key (a request number, a
    stripe number, an object name) and poll until a completion with this key
    comes in or the time is over.  The channel, stripe source or store is the
    [provider]: it holds the requests in flight and the completions not yet
    collected.  Each request carries a ghost number, counted from 0 in the order
    in which requests were started; the code only has the key. *)
From Coq Require Import List Arith NArith Bool.
From Verif Require Import Base.
Import ListNotations.

Section Wait.
Context {K R : Type}.
Variable keqb : K -> K -> bool.

Record provider := mk_provider {
  p_next : nat;                     (* ghost number of the next request *)
  p_flight : list (nat * K);        (* requests in flight *)
  p_ready : list (nat * K * R)      (* completions to be collected, oldest first *)
}.
Definition p_init : provider := mk_provider 0 [] [].

(** IoChannel::add_* with submit, StripeSource::request,
    ArchiveStore::start_put_object, start_get_object (archive/mod.rs:18-22). *)
Definition start (k : K) (p : provider) : provider :=
  mk_provider (S (p_next p)) (p_flight p ++ [(p_next p, k)]) (p_ready p).

(** Request [o] ends with result [r]; nothing happens if it is not in flight. *)
Definition finish (o : nat) (r : R) (p : provider) : provider :=
  match find (fun e => fst e =? o) (p_flight p) with
  | Some (_, k) => mk_provider (p_next p) (filter (fun e => negb (fst e =? o)) (p_flight p)) (p_ready p ++ [(o, k, r)])
  | None => p
  end.
Definition finish_all (l : list (nat * R)) (p : provider) : provider :=
  fold_left (fun p e => finish (fst e) (snd e) p) l p.

(** IoChannel::poll, StripeSource::poll, ArchiveStore::poll_puts, poll_gets: all
    completions are handed out. *)
Definition poll (p : provider) : list (nat * K * R) * provider :=
  (p_ready p, mk_provider (p_next p) (p_flight p) []).

(** The for loops over the completions: wait_for_completion.rs:11-21,
    wait.rs:10-20, archive/mod.rs:37-41, 58-62.  The first one with the key is
    taken, the others of the batch are dropped with it. *)
Definition pick (k : K) (l : list (nat * K * R)) : option (nat * R) :=
  match find (fun e => keqb (snd (fst e)) k) l with
  | Some (o, _, r) => Some (o, r)
  | None => None
  end.

(** How a wait ends: with the result of a completion (and, ghost, the number of the
    request it belongs to), or without. *)
Inductive ending := Got (o : nat) (r : R) | TimedOut.

(** One turn of the loop: what [start.elapsed()] reads, and the requests that end
    between that and the poll (or, in wait_for_stripe, since the turn before). *)
Definition turn := (N * list (nat * R))%type.

(** wait_for_completion.rs:8-32, archive/mod.rs:35-47 and 56-68: the clock is
    checked, then completions are collected.  Sleeping does not show.  [None]: the
    loop goes on after the given turns. *)
Fixpoint wait_check_first (k : K) (timeout : N) (turns : list turn) (p : provider) : option ending * provider :=
  match turns with
  | [] => (None, p)
  | (elapsed, fin) :: turns' =>
      if (elapsed <? timeout)%N then
        let (l, p1) := poll (finish_all fin p) in
        match pick k l with
        | Some (o, r) => (Some (Got o r), p1)
        | None => wait_check_first k timeout turns' p1
        end
      else (Some TimedOut, finish_all fin p)
  end.

(** wait.rs:7-30: completions are collected, then the clock is checked. *)
Fixpoint wait_poll_first (k : K) (timeout : N) (turns : list turn) (p : provider) : option ending * provider :=
  match turns with
  | [] => (None, p)
  | (elapsed, fin) :: turns' =>
      let (l, p1) := poll (finish_all fin p) in
      match pick k l with
      | Some (o, r) => (Some (Got o r), p1)
      | None => if (elapsed <? timeout)%N then wait_poll_first k timeout turns' p1 else (Some TimedOut, p1)
      end
  end.

(** put_object and get_object (archive/mod.rs:30-47, 51-68), and the callers of
    wait_for_completion (e.g. save.rs:52-58, load.rs:24-27, session.rs:158-165). *)
Definition sync_call (k : K) (timeout : N) (turns : list turn) (p : provider) : option ending * provider :=
  wait_check_first k timeout turns (start k p).

(** session.rs:170-176: read_stripe_from_source. *)
Definition sync_stripe (k : K) (timeout : N) (turns : list turn) (p : provider) : option ending * provider :=
  wait_poll_first k timeout turns (start k p).

(** One caller making one synchronous call after the other on the same provider;
    it stops in a call that does not end. *)
Fixpoint sync_calls (calls : list (K * N * list turn)) (p : provider) : list (option ending) * provider :=
  match calls with
  | [] => ([], p)
  | (k, timeout, turns) :: calls' =>
      match sync_call k timeout turns p with
      | (None, p') => ([None], p')
      | (Some e, p') => let (es, p'') := sync_calls calls' p' in (Some e :: es, p'')
      end
  end.
End Wait.

Arguments p_init {K R}.
Arguments sync_calls {K R}. Arguments sync_call {K R}. Arguments sync_stripe {K R}.
