(** Configuration files and their includes.

    Models src/config/v2/includes.rs (all of it), and [load_merged] and
    [validate_top_level_keys] of src/config/v2/load.rs.

    TOML text is not parsed here: a file is given as the value its text parses
    to.  Error texts are not modelled, only a tag. *)
From Coq Require Import List NArith Bool String Ascii.
From Verif Require Import Base.
Import ListNotations.
Local Open Scope string_scope.

(** A TOML value (toml::Value).  Everything that is not a table is a leaf:
    merge_tables (includes.rs:130-162) looks only at "table or not".  Leaves
    that are arrays of strings are kept apart because [include] must be one;
    every other leaf (number, string, date, other arrays) is an opaque code. *)
Inductive leaf : Type :=
| LStrings (l : list string)
| LOther (code : N).

Inductive value : Type :=
| VLeaf (x : leaf)
| VTable (t : list (string * value)).

(** toml::map::Map<String, Value>: a finite map.  A list of key/value pairs
    with distinct keys ([wf] below); its order is the iteration order, about
    which nothing is assumed. *)
Definition table : Type := list (string * value).

(** [Map::get]. *)
Fixpoint get (k : string) (t : table) : option value :=
  match t with
  | [] => None
  | (k', v) :: t' => if String.eqb k k' then Some v else get k t'
  end.

(** [Map::insert], and assignment through [get_mut]. *)
Fixpoint put (k : string) (v : value) (t : table) : table :=
  match t with
  | [] => [(k, v)]
  | (k', v') :: t' => if String.eqb k k' then (k', v) :: t' else (k', v') :: put k v t'
  end.

(** [Map::remove]. *)
Fixpoint remove (k : string) (t : table) : table :=
  match t with
  | [] => []
  | (k', v) :: t' => if String.eqb k k' then remove k t' else (k', v) :: remove k t'
  end.

(** The keys of every table are distinct (an invariant of [Map]). *)
Inductive wf : value -> Prop :=
| wf_leaf x : wf (VLeaf x)
| wf_table t : NoDup (map fst t) -> Forall (fun kv => wf (snd kv)) t -> wf (VTable t).

(** merge_tables, includes.rs:130-162.  The [for] loop over the additions; the
    path argument serves only error texts and is left out.  On an error the
    half-merged base is dropped by the caller, so nothing of it is returned. *)
Fixpoint merge_into (add : value) (base : table) {struct add} : res table :=
  match add with
  | VLeaf _ => Ok base  (* not reached: the addition is a map *)
  | VTable kvs =>
      (fix go (kvs : list (string * value)) (base : table) : res table :=
         match kvs with
         | [] => Ok base
         | (k, v) :: rest =>
             match get k base, v with
             | Some (VTable b), VTable _ =>
                 let! b' := merge_into v b in go rest (put k (VTable b') base)
             | Some (VTable _), VLeaf _ => Err 1   (* type mismatch *)
             | Some (VLeaf _), VTable _ => Err 1   (* type mismatch *)
             | Some (VLeaf _), VLeaf _ => Err 2    (* duplicate key *)
             | None, _ => go rest (put k v base)
             end
         end) kvs base
  end.

Definition merge_tables (base addition : table) : res table :=
  merge_into (VTable addition) base.

(** [s.strip_suffix('?')], includes.rs:33. *)
Fixpoint strip_question (s : string) : option string :=
  match s with
  | EmptyString => None
  | String c EmptyString => if Ascii.eqb c "?" then Some EmptyString else None
  | String c r => match strip_question r with Some p => Some (String c p) | None => None end
  end.

(** The pieces between the slashes of a path. *)
Fixpoint pieces (s : string) : list string :=
  match s with
  | EmptyString => [EmptyString]
  | String c r =>
      if Ascii.eqb c "/" then EmptyString :: pieces r
      else match pieces r with
           | [] => [String c EmptyString]
           | p :: ps => String c p :: ps
           end
  end.

(** [str::trim().is_empty()], includes.rs:48.  ASCII white space only; Rust
    also trims Unicode white space. *)
Definition is_space (c : ascii) : bool :=
  let n := nat_of_ascii c in
  (Nat.eqb n 32 || (Nat.leb 9 n && Nat.leb n 13))%bool.
Fixpoint blank (s : string) : bool :=
  match s with EmptyString => true | String c r => is_space c && blank r end.

(** validate_include_path, includes.rs:46-73, on Unix: [is_absolute] (and
    [RootDir]) means a leading slash, there are no prefixes, and [ParentDir] is
    a piece "..". *)
Definition starts_with_slash (s : string) : bool :=
  match s with String c _ => Ascii.eqb c "/" | EmptyString => false end.
Definition validate_include_path (path : string) : res unit :=
  if blank path then Err 3
  else if starts_with_slash path then Err 4
  else if existsb (String.eqb "..") (pieces path) then Err 5
  else Ok tt.

(** IncludeEntry, includes.rs:8-13. *)
Record entry := { e_path : string; e_optional : bool }.

(** The closure mapped over the strings, includes.rs:32-43. *)
Definition parse_entry (s : string) : res entry :=
  let '(path, optional) :=
    match strip_question s with Some p => (p, true) | None => (s, false) end in
  let! _ := validate_include_path path in
  Ok {| e_path := path; e_optional := optional |}.

Fixpoint parse_entries (l : list string) : res (list entry) :=
  match l with
  | [] => Ok []
  | s :: l' => let! e := parse_entry s in let! es := parse_entries l' in Ok (e :: es)
  end.

(** parse_include_array, includes.rs:19-45.  [Value::get] of a non-table is
    [None]. *)
Definition parse_include_array (root : value) : res (list entry) :=
  match root with
  | VLeaf _ => Ok []
  | VTable t =>
      match get "include" t with
      | None => Ok []
      | Some (VLeaf (LStrings l)) => parse_entries l
      | Some _ => Err 6
      end
  end.

(** What reading the file [config_dir.join(path)] and parsing it gives
    (includes.rs:98-115): no such file, another read error, text that is not
    TOML, or a table. *)
Inductive file : Type :=
| FMissing
| FUnreadable
| FInvalid
| FTable (t : table).

(** The loop of resolve_includes, includes.rs:95-125. *)
Fixpoint include_all (fs : string -> file) (es : list entry) (root : table) : res table :=
  match es with
  | [] => Ok root
  | e :: es' =>
      match fs (e_path e) with
      | FMissing => if e_optional e then include_all fs es' root else Err 7
      | FUnreadable => Err 7
      | FInvalid => Err 8
      | FTable t =>
          match get "include" t with
          | Some _ => Err 9
          | None => let! root' := merge_tables root t in include_all fs es' root'
          end
      end
  end.

(** resolve_includes, includes.rs:84-128. *)
Definition resolve_includes (fs : string -> file) (root : value) : res value :=
  let! es := parse_include_array root in
  match root with
  | VLeaf _ => Err 10
  | VTable t => let! m := include_all fs es (remove "include" t) in Ok (VTable m)
  end.

(** validate_top_level_keys, load.rs:294-308. *)
Definition validate_top_level_keys (root : value) (allowed : list string) : res unit :=
  match root with
  | VLeaf _ => Err 11
  | VTable t =>
      if forallb (fun kv => existsb (String.eqb (fst kv)) allowed) t then Ok tt else Err 12
  end.

(** load_merged, load.rs:235-239. *)
Definition load_merged (fs : string -> file) (root : value) (allowed : list string) : res value :=
  let! merged := resolve_includes fs root in
  let! _ := validate_top_level_keys merged allowed in
  Ok merged.
