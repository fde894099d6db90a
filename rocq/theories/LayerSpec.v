(** Vocabulary for C79: what a layer expects of the layer above and of the layer
    below, in terms of the history between them. *)
From Coq Require Import List Arith Bool.
Import ListNotations.
From Verif Require Import Base DiskSpec CryptModel.

Section Spec.
Context {V : Type}.

(** Request [n], made with [id] on channel [q], has not completed at the end of [tr]
    (a crash ends all requests). *)
Definition waiting (tr : list (titem V)) (n q id : nat) : Prop :=
  exists t1 r t2, tr = t1 ++ TIssue n q id r :: t2 /\ ~ In TCrash t2 /\
    forall q' id' ok data, ~ In (TDone n q' id' ok data) t2.

(** So far this is a history of an ordinary disk. *)
Definition behaves (size : nat) (contents : nat -> V) (tr : list (titem V)) : Prop :=
  exists d, disk_behaviour size contents tr d.

(** The caller's side of the contract of IoChannel (block_device/mod.rs:16-34): as
    long as the device has behaved, no request is made with the id of one that is
    in flight on the same channel. *)
Definition respects (size : nat) (contents : nat -> V) (tr : list (titem V)) : Prop :=
  forall t1 n q id r t2, tr = t1 ++ TIssue n q id r :: t2 -> behaves size contents t1 ->
    forall m, ~ waiting t1 m q id.

End Spec.

(** The rest of that contract, for the encrypting device of CryptModel.v: a buffer
    belongs to one request at a time, is not touched meanwhile, and is large enough
    (the id clauses of [call_ok] are left out). *)
Section Buffers.
Context {V : Type}.
Variable enc dec : nat -> V -> V.
Variable size : nat.

Definition buf_ok (s : cdev V) (e : cevent V) : Prop :=
  match e with
  | CFill b _ => buf_free s b
  | CRead _ _ _ _ cnt b | CWrite _ _ _ _ cnt b => buf_free s b /\ cnt <= length (c_mem s b)
  | _ => True
  end.

Fixpoint bufs_ok (s : cdev V) (es : list (cevent V)) : Prop :=
  match es with
  | [] => True
  | e :: r => buf_ok s e /\ match cstep enc dec size s e with Some (s1, _) => bufs_ok s1 r | None => True end
  end.
End Buffers.
