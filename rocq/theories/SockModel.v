(** The sockets a backend process creates: the RPC socket
    (src/backends/common/rpc.rs:72-97), the vhost-user socket
    (src/backends/vhost/backend_loop.rs:40-58) and the guard around the process
    umask (src/utils/umask_guard.rs). *)
From Coq Require Import List NArith Bool.
Import ListNotations.
Local Open Scope N_scope.

(** A directory entry.  [ours]: created by this process.  Simplification: only
    what matters for access control is kept; paths are numbers. *)
Record ent := { issock : bool; mode : N; ours : bool }.

(** What the kernel keeps: the umask of the process and the directory. *)
Record os := { um : N; ents : N -> option ent }.

Definition upd_ent (f : N -> option ent) (p : N) (e : option ent) : N -> option ent :=
  fun q => if q =? p then e else f q.

(** umask_guard.rs:15-18 and backend_loop.rs:53 / rpc.rs:88: 0o117. *)
Definition GUARD_MASK : N := 79.

(** backend_loop.rs:58, rpc.rs:97: 0o660. *)
Definition SOCKET_MODE : N := 432.

(** The mode bind(2) gives a new socket: 0o777 without the bits of the umask. *)
Definition bind_mode (umask : N) : N := N.ldiff 511 umask.

(** The system calls, in the order the code makes them. *)
Inductive instr :=
| IUnlink (p : N)        (* rpc.rs:79-85: an error other than NotFound ends the start *)
| IUnlinkQuiet (p : N)   (* Listener::new(_, true): the result is ignored *)
| IGuard                 (* UmaskGuard::set(0o117) *)
| IBind (p : N)          (* UnixListener::bind *)
| IRestore               (* the guard is dropped: umask_guard.rs:22-26 *)
| IChmod (p : N).        (* fs::set_permissions(_, 0o660) *)

(** rpc.rs:79-97. *)
Definition start_rpc (p : N) : list instr :=
  [IUnlink p; IGuard; IBind p; IRestore; IChmod p].

(** backend_loop.rs:52-58. *)
Definition start_vhost (p : N) : list instr :=
  [IGuard; IUnlinkQuiet p; IBind p; IRestore; IChmod p].

(** A thread: the calls it still has to make, the umask its guard remembers and
    whether an error ended its work. *)
Record thread := { code : list instr; saved : N; failed : bool }.

Definition fresh (c : list instr) : thread := {| code := c; saved := 0; failed := false |}.

(** One system call; [bad]: the kernel refuses it for a reason outside the model
    (permission, no space, ...).  umask(2) cannot fail.  When bind fails the guard
    is still dropped, because the [?] leaves its block. *)
Definition step (o : os) (t : thread) (bad : bool) : os * thread :=
  match code t with
  | [] => (o, t)
  | i :: rest =>
    let go o' := (o', {| code := rest; saved := saved t; failed := failed t |}) in
    let stop := (o, {| code := []; saved := saved t; failed := true |}) in
    match i with
    | IUnlink p =>
        match ents o p with
        | None => go o
        | Some _ => if bad then stop else go {| um := um o; ents := upd_ent (ents o) p None |}
        end
    | IUnlinkQuiet p =>
        if bad then go o else go {| um := um o; ents := upd_ent (ents o) p None |}
    | IGuard =>
        ({| um := GUARD_MASK; ents := ents o |},
         {| code := rest; saved := um o; failed := failed t |})
    | IBind p =>
        if bad || match ents o p with Some _ => true | None => false end
        then (o, {| code := [IRestore]; saved := saved t; failed := true |})
        else go {| um := um o;
                   ents := upd_ent (ents o) p
                     (Some {| issock := true; mode := bind_mode (um o); ours := true |}) |}
    | IRestore => go {| um := saved t; ents := ents o |}
    | IChmod p =>
        match ents o p with
        | None => stop
        | Some e =>
            if bad then stop
            else go {| um := um o;
                       ents := upd_ent (ents o) p
                         (Some {| issock := issock e; mode := SOCKET_MODE; ours := ours e |}) |}
        end
    end
  end.

(** What the main thread does with sockets in its life (common/mod.rs:288-325
    [run_backend_loop]): the RPC socket if one is configured, then one vhost-user
    socket per client served. *)
Definition main_code (rpc : option N) (vhost : N) (clients : nat) : list instr :=
  match rpc with Some p => start_rpc p | None => [] end
  ++ concat (repeat (start_vhost vhost) clients).

(** A run of one thread: one boolean per system call made so far, so every list is
    a crash point. *)
Fixpoint run (o : os) (t : thread) (bads : list bool) : os * thread :=
  match bads with
  | [] => (o, t)
  | b :: bs => let '(o1, t1) := step o t b in run o1 t1 bs
  end.

(** Two threads of one process under a schedule. *)
Fixpoint run2 (o : os) (a b : thread) (sched : list bool) : os * thread * thread :=
  match sched with
  | [] => (o, a, b)
  | true :: s => let '(o1, a1) := step o a false in run2 o1 a1 b s
  | false :: s => let '(o1, b1) := step o b false in run2 o1 a b1 s
  end.
