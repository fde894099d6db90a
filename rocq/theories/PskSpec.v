(** Vocabulary for the properties of pre-shared keys and of the stripe server
    process. *)
From Coq Require Import List Arith NArith Bool.
Import ListNotations.
From Verif Require Import Base RemoteModel PskModel.

(** The peer knows the secret and names the identity (OpenSSL ignores what follows a
    zero byte). *)
Definition holds (c : creds) (p : peer) : Prop :=
  pe_key p = cr_secret c /\
  exists rest, pe_identity p = cr_identity c ++ rest /\ (rest = [] \/ hd 1%N rest = 0%N).

Definition no_zero (l : list byte) : Prop := ~ In 0%N l.

(** The connections made during [es], in order: the peer and what it sends. *)
Fixpoint connects (es : list snet) : list (peer * list byte) :=
  match es with
  | [] => []
  | NConnect p input :: r => (p, input) :: connects r
  | _ :: r => connects r
  end.

(** What happens to connection [i] alone, as if it were the only connection of a
    server; [n]: how many connections have been made before [es]. *)
Fixpoint only (n i : nat) (es : list snet) : list snet :=
  match es with
  | [] => []
  | NConnect p input :: r => if n =? i then NConnect p input :: only (S n) i r else only (S n) i r
  | NAcceptError :: r => only n i r
  | NHandshake j :: r => if j =? i then NHandshake 0 :: only n i r else only n i r
  | NRequest j o :: r => if j =? i then NRequest 0 o :: only n i r else only n i r
  end.
