(** More general facts about lists. *)
From Coq Require Import List Arith Lia.
Import ListNotations.

Lemma skipn_skipn : forall {A} a b (l : list A), skipn a (skipn b l) = skipn (a + b) l.
Proof.
  intros A a b. revert a. induction b as [|b IH]; intros a l.
  - now rewrite Nat.add_0_r.
  - destruct l as [|x l]; [now rewrite !skipn_nil|]. cbn [skipn]. rewrite IH.
    now replace (a + S b) with (S (a + b)) by lia.
Qed.
