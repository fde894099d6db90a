(** What is expected of a store in a directory (C64). *)
From Coq Require Import String.
From Coq Require Import List Arith NArith Bool.
From Verif Require Import Base StoreModel FsStoreModel.
From Verif Require ArchiveModel.
Import ListNotations.

(** Object names made of plain components: at least one, each with something in it
    that is not a slash, and none "." or "..". *)
Fixpoint join (cs : list comp) : list byte :=
  match cs with
  | [] => []
  | [c] => c
  | c :: cs' => c ++ SLASH :: join cs'
  end.
Definition plain_comp (c : comp) : Prop := c <> [] /\ ~ In SLASH c /\ c <> [DOT] /\ c <> [DOT; DOT].
Definition plain (name : list byte) (cs : list comp) : Prop :=
  name = join cs /\ cs <> [] /\ Forall plain_comp cs.

(** [q] is [p] or lies under it. *)
Definition under (p q : path) : Prop := exists r, q = p ++ r.

Definition is_put_to (base : path) (p : path) (c : fs_call) : Prop :=
  exists name data i1 i2, c = FPut name data i1 i2 /\ locate base name = p.
Definition puts (cs : list fs_call) : list (list byte) :=
  flat_map (fun c => match c with FPut n _ _ _ => [n] | _ => [] end) cs.
Definition gets (cs : list fs_call) : list (list byte) :=
  flat_map (fun c => match c with FGet n _ => [n] | _ => [] end) cs.
Definition put_reports (rs : list fs_report) : list (list byte * bool) :=
  flat_map (fun r => match r with RPuts l => l | _ => [] end) rs.
Definition get_reports (rs : list fs_report) : list (list byte * option (list byte)) :=
  flat_map (fun r => match r with RGets l => l | _ => [] end) rs.

(** The directory and everything above it exist. *)
Definition directory (f : fs) (p : path) : Prop := forall q r, p = q ++ r -> f q = Some NDir.

(** The call meets no error of the operating system. *)
Definition smooth (c : fs_call) : Prop :=
  match c with FPut _ _ i1 i2 => i1 = IoOk /\ i2 = IoOk | FGet _ i => i = IoOk | _ => True end.

(** The put is reported with this result. *)
Definition reported (base : path) (s : fstore) (c : fs_call) (name : list byte) (ok : bool) : Prop :=
  f_puts (fst (fs_step base s c)) = f_puts s ++ [(name, ok)].

(** The names of the objects of an archive, as components. *)
Definition archive_object (ps : list comp) : Prop :=
  ps = [ArchiveModel.META_NAME] \/ ps = [ArchiveModel.MAPPING_NAME] \/
  exists h, h <> [] /\ ps = [ArchiveModel.ascii_bytes "data"; ArchiveModel.hex h].
