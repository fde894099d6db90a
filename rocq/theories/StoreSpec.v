(** What the users of an object store rely on (C53, C54), in terms of the calls, the
    answers and the contents of the bucket over time. *)
From Coq Require Import String List Arith NArith Bool.
From Verif Require Import Base ArchiveModel StoreModel.
Import ListNotations.

(** ** Keys *)

(** [folder prefix f]: the objects of a store configured with [prefix] have the keys
    [f ++ name].  Slashes around the prefix do not matter. *)
Inductive folder : option (list byte) -> list byte -> Prop :=
| folder_none : folder None []
| folder_slashes n : folder (Some (repeat SLASH n)) []
| folder_named n core m : core <> [] -> hd SLASH core <> SLASH -> last core SLASH <> SLASH ->
    folder (Some (repeat SLASH n ++ core ++ repeat SLASH m)) (core ++ [SLASH]).

(** The names of the objects of an archive: the metadata, the mapping, and the
    stripes' objects, which are named by a hash in hexadecimal. *)
Definition hex_digit (b : byte) : Prop := (48 <= b <= 57 \/ 97 <= b <= 102)%N.
Definition archive_name (n : list byte) : Prop :=
  n = META_NAME \/ n = MAPPING_NAME \/ exists h, n = ascii_bytes "data/"%string ++ h /\ h <> [] /\ Forall hex_digit h.

(** ** Time *)

Section Time.
  Variables (s0 : s3) (ev : nat -> sevent).
  (** The state after the first [t] events and what event [t] shows. *)
  Definition after (t : nat) : s3 := fst (s3_run s0 (map ev (seq 0 t))).
  Definition shows (t : nat) : list sobs := snd (s3_step (after t) (ev t)).
  Definition again (P : nat -> Prop) : Prop := forall t, exists t', t <= t' /\ P t'.

  (** The workers go on for ever and the caller keeps polling. *)
  Record store_keeps_running (n : nat) : Prop := {
    sk_alive : forall t w, ev t <> SDie w;
    sk_take : forall w, w < n -> again (fun t => ev t = STake w);
    sk_done : forall w, again (fun t => s3_jobs (after t) w = None);
    sk_puts : again (fun t => ev t = SPollPuts);
    sk_gets : again (fun t => ev t = SPollGets) }.
End Time.

(** The outcome [o] of call [c], made at event [t0] and answered at event [t]: a
    successful put stored its data and a successful get returned what the bucket held,
    at some moment in between. *)
Definition right_outcome (s0 : s3) (ev : nat -> sevent) (f : list byte) (t0 t : nat) (c : call) (o : outcome) : Prop :=
  match c, o with
  | Put n d, OPut ok => ok = true -> exists u, t0 < u <= t /\ s3_bucket (after s0 ev u) (f ++ n) = Some d
  | Get n, OGet r => forall d, r = Some d -> exists u, t0 < u <= t /\ s3_bucket (after s0 ev u) (f ++ n) = Some d
  | _, _ => False
  end.
