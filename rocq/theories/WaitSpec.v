(** What a synchronous call may report (C63).

    A request was started; later its fate was decided, or not.  The caller of a
    synchronous call is to be told the fate of its own request. *)
From Coq Require Import List Arith NArith Bool.
From Verif Require Import Base WaitModel.
Import ListNotations.

Section WaitSpec.
Context {K R : Type}.

(** Request [o] ends with [r] somewhere in the given turns, for the first time. *)
Definition ends_with (turns : list (@turn R)) (o : nat) (r : R) : Prop :=
  exists before after, flat_map snd turns = before ++ (o, r) :: after /\ ~ In o (map fst before).

Definition never_ends (turns : list (@turn R)) (o : nat) : Prop := ~ In o (map fst (flat_map snd turns)).

(** The clock in the given turns has not reached the time limit. *)
Definition in_time (timeout : N) (turns : list (@turn R)) : Prop :=
  Forall (fun t => (fst t < timeout)%N) turns.

(** No request with this key is under way or waits to be reported. *)
Definition unused (k : K) (p : @provider K R) : Prop :=
  ~ In k (map snd (p_flight p)) /\ ~ In k (map (fun e => snd (fst e)) (p_ready p)).

(** Request numbers are those handed out so far, each at one place. *)
Definition coherent (p : @provider K R) : Prop :=
  NoDup (map fst (p_flight p) ++ map (fun e => fst (fst e)) (p_ready p)) /\
  Forall (fun o => o < p_next p) (map fst (p_flight p) ++ map (fun e => fst (fst e)) (p_ready p)).
End WaitSpec.
