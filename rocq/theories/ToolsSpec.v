(** What the output of the inspection tools means to someone who reads it. *)
From Coq Require Import List NArith Bool String.
From Verif Require Import Base RpcModel RpcSpec.
Import ListNotations.
Local Open Scope N_scope.

(** The numbers from [a] to [b]. *)
Definition range (a b : N) : list N := map (fun i => a + N.of_nat i) (seq 0 (N.to_nat (b + 1 - a))).

(** Reading a listing such as "0, 3, 4, 7-12": items separated by a comma and a
    space, an item being a number or two numbers with a dash between them, which
    stands for all the numbers from the first to the second.  [read_digits]
    (RpcSpec.v) reads the digits at the front of a text. *)
Fixpoint read_items (fuel : nat) (l : list byte) : option (list N) :=
  match fuel with
  | O => None
  | S fuel =>
    let more (r : list byte) (got : list N) :=
      match r with
      | [] => Some got
      | 44 :: 32 :: r' => match read_items fuel r' with Some rest => Some (got ++ rest) | None => None end
      | _ => None
      end in
    match read_digits l with
    | (Decimal.Nil, _) => None
    | (u, r) =>
      match r with
      | 45 :: r' =>
        match read_digits r' with
        | (Decimal.Nil, _) => None
        | (v, r'') => more r'' (range (N.of_uint u) (N.of_uint v))
        end
      | _ => more r [N.of_uint u]
      end
    end
  end.
Definition read_listing (l : list byte) : option (list N) :=
  match l with [] => Some [] | _ => read_items (List.length l) l end.

(** A word that stands for a number: digits, perhaps after a plus sign. *)
Definition number (w : list byte) (n : N) : Prop :=
  exists u, u <> Decimal.Nil /\ n = N.of_uint u /\ n < 2 ^ 64 /\ (w = print_uint u \/ w = 43 :: print_uint u).

(** The bytes that a text of hexadecimal digits stands for. *)
Fixpoint unhex_text (l : list byte) : list byte :=
  match l with a :: b :: r => 16 * unhex a + unhex b :: unhex_text r | _ => [] end.

(** The lines typed in a session, with the server's answers, and what the user has
    fetched of stripe [i] in it: the data of the last fetch_stripe of that stripe
    that succeeded. *)
Definition fetch_word : list byte := text "fetch_stripe".
Inductive fetched (stripes : N) (i : N) :
    list (list (list byte) * (N -> res (list byte))) -> option (list byte) -> Prop :=
| fetched_nothing : fetched stripes i [] None
| fetched_this : forall h w more server d, number w i -> i < stripes -> server i = Ok d ->
    fetched stripes i (h ++ [(fetch_word :: w :: more, server)]) (Some d)
| fetched_before : forall h words server r, fetched stripes i h r ->
    ~ (exists w more d, words = fetch_word :: w :: more /\ number w i /\ i < stripes /\ server i = Ok d) ->
    fetched stripes i (h ++ [(words, server)]) r.

(** The user has not left the shell. *)
Definition still_in (h : list (list (list byte) * (N -> res (list byte)))) : Prop :=
  forall words server, In (words, server) h ->
    match words with cmd :: _ => cmd <> text "exit" /\ cmd <> text "quit" | [] => True end.
