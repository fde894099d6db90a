(** What a pool of buffers owes its user, without reference to how it works. *)
From Coq Require Import List NArith.
Import ListNotations.
From Verif Require Import Base BufModel.

(** [all]: the pool's buffers.  [out]: the ones handed out and not returned.  A get hands
    out a buffer that is not out, and fails only when all are; a return is accepted exactly
    when the buffer is out, and otherwise panics, which ends the history. *)
Fixpoint proper (all out : list shared) (cs : list pcall) (ans : list panswer) : Prop :=
  match cs, ans with
  | [], [] => True
  | PGet :: cs', AGot (Some b) :: ans' => In b all /\ ~ In b out /\ proper all (b :: out) cs' ans'
  | PGet :: cs', AGot None :: ans' => (forall b, In b all -> In b out) /\ proper all out cs' ans'
  | PReturn b :: cs', AReturned :: ans' =>
    In b out /\ exists before after, out = before ++ b :: after /\ proper all (before ++ after) cs' ans'
  | PReturn b :: _, [APanic] => ~ In b out
  | _, _ => False
  end.

(** Two handles of the same allocation are the same: [id] lies in the allocation. *)
Definition handles_ok (all : list shared) (cs : list pcall) : Prop :=
  forall b b', In (PReturn b) cs -> In b' all -> sh_arc b = sh_arc b' -> b = b'.

(** Byte ranges [a, a+n) and [b, b+m). *)
Definition apart (a n b m : N) : Prop := (a + n <= b \/ b + m <= a)%N.
