(** The object store in a directory (src/archive/fs_store.rs), over a file system
    without links.  Paths are lists of components, the root being []. *)
From Coq Require Import List Arith NArith Bool.
From Verif Require Import Base StoreModel.
Import ListNotations.

Definition comp := list byte.
Definition path := list comp.
Fixpoint path_eqb (a b : path) : bool :=
  match a, b with
  | [], [] => true
  | x :: a', y :: b' => bytes_eqb x y && path_eqb a' b'
  | _, _ => false
  end.

(** ** Paths *)

(** A text cut at its slashes. *)
Fixpoint split_slash (l : list byte) : list comp :=
  match l with
  | [] => [[]]
  | b :: r =>
    match split_slash r with
    | c :: cs => if (b =? SLASH)%N then [] :: c :: cs else (b :: c) :: cs
    | [] => [[b]]                                   (* does not happen *)
    end
  end.

Definition DOT : byte := 46%N.

(** One component as the kernel follows it: "" and "." stay, ".." goes up. *)
Definition follow (p : path) (c : comp) : path :=
  if bytes_eqb c [] || bytes_eqb c [DOT] then p
  else if bytes_eqb c [DOT; DOT] then removelast p
  else p ++ [c].

(** [path.push(name)] (fs_store.rs:22-23, 33-34) and the file it names: a name that
    starts with a slash replaces the path. *)
Definition locate (base : path) (name : list byte) : path :=
  match name with
  | b :: _ => fold_left follow (split_slash name) (if (b =? SLASH)%N then [] else base)
  | [] => base
  end.

(** ** Files *)

Inductive node := NDir | NFile (data : list byte).
Definition fs := path -> option node.
Definition fs_set (p : path) (n : node) (f : fs) : fs := fun q => if path_eqb q p then Some n else f q.

(** What the operating system does to a call, besides the rules below. *)
Inductive io := IoOk | IoFail (n : nat).   (* an error, after the first n bytes or directories *)

(** fs::create_dir_all: the missing directories are made from the top down. *)
Fixpoint make_dirs (done : path) (todo : path) (i : io) (f : fs) : fs * bool :=
  match f done with
  | Some (NFile _) => (f, false)
  | found =>
    match (match found, i with None, IoFail O => None | None, IoFail (S n) => Some (fs_set done NDir f, IoFail n)
           | None, IoOk => Some (fs_set done NDir f, IoOk) | _, _ => Some (f, i) end) with
    | None => (f, false)
    | Some (f1, i1) =>
      match todo with
      | [] => (f1, true)
      | c :: todo' => make_dirs (done ++ [c]) todo' i1 f1
      end
    end
  end.
Definition create_dir_all (p : path) (i : io) (f : fs) : fs * bool := make_dirs [] p i f.

(** fs::write: open for writing (creating the file, or emptying it), then write.
    [IoFail 0] fails before the file is opened, [IoFail (S n)] after [n] bytes. *)
Definition write_file (p : path) (data : list byte) (i : io) (f : fs) : fs * bool :=
  match p, f p, f (removelast p) with
  | [], _, _ => (f, false)
  | _, Some NDir, _ => (f, false)
  | _, _, Some NDir =>
    match i with
    | IoOk => (fs_set p (NFile data) f, true)
    | IoFail O => (f, false)
    | IoFail (S n) => (fs_set p (NFile (firstn n data)) f, false)
    end
  | _, _, _ => (f, false)
  end.

(** fs::read. *)
Definition read_file (p : path) (i : io) (f : fs) : option (list byte) :=
  match f p, i with Some (NFile d), IoOk => Some d | _, _ => None end.

(** ** The store *)

Record fstore := mk_fstore {
  f_fs : fs;
  f_puts : list (list byte * bool);                    (* finished_puts *)
  f_gets : list (list byte * option (list byte))       (* finished_gets *)
}.

(** FileSystemStore::new, fs_store.rs:12-19. *)
Definition fs_new (base : path) (i : io) (f : fs) : option fstore :=
  match create_dir_all base i f with (f1, true) => Some (mk_fstore f1 [] []) | _ => None end.

(** try_put_object, fs_store.rs:21-30.  [path.parent()] is the path without its
    last component. *)
Definition try_put (base : path) (name data : list byte) (i1 i2 : io) (f : fs) : fs * bool :=
  let p := locate base name in
  match create_dir_all (removelast p) i1 f with
  | (f1, false) => (f1, false)
  | (f1, true) => write_file p data i2 f1
  end.

(** try_get_object, fs_store.rs:32-37. *)
Definition try_get (base : path) (name : list byte) (i : io) (f : fs) : option (list byte) :=
  read_file (locate base name) i f.

(** What the user of the store does, with what the operating system does to it. *)
Inductive fs_call :=
  | FPut (name data : list byte) (i1 i2 : io)
  | FGet (name : list byte) (i : io)
  | FPollPuts | FPollGets.
Inductive fs_report := RPuts (l : list (list byte * bool)) | RGets (l : list (list byte * option (list byte))).

(** ArchiveStore for FileSystemStore, fs_store.rs:40-58. *)
Definition fs_step (base : path) (s : fstore) (c : fs_call) : fstore * list fs_report :=
  match c with
  | FPut name data i1 i2 =>
      let (f1, ok) := try_put base name data i1 i2 (f_fs s) in
      (mk_fstore f1 (f_puts s ++ [(name, ok)]) (f_gets s), [])
  | FGet name i =>
      (mk_fstore (f_fs s) (f_puts s) (f_gets s ++ [(name, try_get base name i (f_fs s))]), [])
  | FPollPuts => (mk_fstore (f_fs s) [] (f_gets s), [RPuts (f_puts s)])
  | FPollGets => (mk_fstore (f_fs s) (f_puts s) [], [RGets (f_gets s)])
  end.
Fixpoint fs_run (base : path) (s : fstore) (cs : list fs_call) : fstore * list fs_report :=
  match cs with
  | [] => (s, [])
  | c :: cs' => let (s1, r1) := fs_step base s c in let (s2, r2) := fs_run base s1 cs' in (s2, r1 ++ r2)
  end.

(** ** Power loss *)

(** The store never calls fsync.  After a power loss, a file that was written since
    the machine started ([old]: the files then) is as before, missing, or holds a
    part of what was written: its length may be on disk without its data, so that
    it ends in zeros. *)
Definition survives (old now after : option node) : Prop :=
  after = old \/ after = None \/ after = now \/
  exists d n z, now = Some (NFile d) /\ after = Some (NFile (firstn n d ++ repeat 0%N z)) /\ n + z <= length d.
Definition power_loss (old now after : fs) : Prop := forall p, survives (old p) (now p) (after p).
