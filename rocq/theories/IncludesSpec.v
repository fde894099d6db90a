(** What a configuration says, independently of how files are merged. *)
From Coq Require Import List NArith Bool String Ascii.
From Verif Require Import Base IncludesModel.
Import ListNotations.
Local Open Scope string_scope.

(** What stands at a dotted path: a table or a value that is not one. *)
Inductive node : Type := NTable | NLeaf (x : leaf).

(** [says v p n]: in [v], the dotted path [p] is present and holds [n]. *)
Inductive says : value -> list string -> node -> Prop :=
| says_leaf x : says (VLeaf x) [] (NLeaf x)
| says_table t : says (VTable t) [] NTable
| says_below t k v p n : In (k, v) t -> says v p n -> says (VTable t) (k :: p) n.

(** Two files conflict when some dotted path is present in both and is not a
    table in both. *)
Definition conflict (a b : value) : Prop :=
  exists p na nb, says a p na /\ says b p nb /\ ~ (na = NTable /\ nb = NTable).

(** The entry string [s] of the include list names [path]; a trailing question
    mark makes it optional. *)
Inductive names : string -> string -> bool -> Prop :=
| names_optional path : names (path ++ "?") path true
| names_required path : (forall q, path <> q ++ "?") -> names path path false.

(** The include path is a relative path that never leaves the directory of the
    main file: walking it piece by piece, "." and empty pieces stay, ".."
    goes up, anything else goes down.  Symbolic links are out of sight. *)
Fixpoint walk (at_ : list string) (ps : list string) : option (list string) :=
  match ps with
  | [] => Some at_
  | p :: ps' =>
      if String.eqb p "" || String.eqb p "." then walk at_ ps'
      else if String.eqb p ".." then
        match at_ with [] => None | _ :: up => walk up ps' end
      else walk (p :: at_) ps'
  end.

(** An acceptable include path: not blank, not absolute, without "..". *)
Definition acceptable (path : string) : Prop :=
  blank path = false /\ (forall r, path <> "/" ++ r) /\ ~ In ".." (pieces path).

(** [loads fs l files]: reading the include list [l] in order finds exactly
    the tables [files]; a missing optional file is skipped, and no file has an
    include list of its own. *)
Inductive loads (fs : string -> file) : list string -> list value -> Prop :=
| loads_nil : loads fs [] []
| loads_skip s path l files :
    names s path true -> acceptable path ->
    fs path = FMissing -> loads fs l files -> loads fs (s :: l) files
| loads_file s path o t l files :
    names s path o -> acceptable path ->
    fs path = FTable t -> (forall v, ~ In ("include", v) t) ->
    loads fs l files -> loads fs (s :: l) (VTable t :: files).

(** The include list of the main file: absent means empty. *)
Inductive include_list : value -> list string -> Prop :=
| il_absent t : (forall v, ~ In ("include", v) t) -> include_list (VTable t) []
| il_present t l : In ("include", VLeaf (LStrings l)) t -> include_list (VTable t) l.

(** What the main file says besides its include list. *)
Definition own_says (root : value) (p : list string) (n : node) : Prop :=
  says root p n /\ hd_error p <> Some "include".

(** The main file and an included file conflict. *)
Definition conflict_own (root b : value) : Prop :=
  exists p na nb, own_says root p na /\ says b p nb /\ ~ (na = NTable /\ nb = NTable).

(** All files on disk parse to maps with distinct keys. *)
Definition fs_wf (fs : string -> file) : Prop :=
  forall path t, fs path = FTable t -> wf (VTable t).
