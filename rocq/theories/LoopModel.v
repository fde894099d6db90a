(** The life of a backend process: src/backends/common/mod.rs [run_backend_loop],
    [run_bgworker_thread], [spawn_bgworker_thread], [stop_bgworker_thread], the [Drop]
    of [BackendEnv], and the loop of the background worker
    (src/block_device/bdev_lazy/bgworker.rs [receive_requests], [run]).

    Two threads, interleaved freely.  What the threads do inside a step (build the
    devices, serve a client, ...) is a result chosen by the environment: [ROk], [RErr]
    (the function returns an error) or [RPanic] (it unwinds).
    Simplification: the RPC listener thread is not a party here; it never touches the
    worker. *)
From Coq Require Import List Bool.
Import ListNotations.

Inductive outcome := ROk | RErr | RPanic.

(** bgworker.rs:10-14 [BgWorkerRequest]. *)
Inductive req := RFetch (stripe : nat) | RSetWritten (stripe : nat) | RShutdown.

Definition is_shutdown (r : req) : bool := match r with RShutdown => true | _ => false end.

(** What the configuration decides: a metadata device is configured (mod.rs:62-81);
    the caller of [run_backend_loop] serves for ever (vhost: true,
    backend_loop.rs:19) or once (ublk). *)
Record cfg := { has_metadata : bool; forever : bool }.

(** The main thread, by where it is in [run_backend_loop] (mod.rs:288-325). *)
Inductive mpc :=
| MBuild                (* 302: BackendEnv::build *)
| MSpawn                (* 88: spawn_bgworker_thread *)
| MWait                 (* 92: startup_receiver.recv() *)
| MRpc                  (* 305-311: start_rpc_server *)
| MServing              (* 313-319: inside serve *)
| MStop (r : outcome)   (* 280-284 and 103-108: drop, send Shutdown *)
| MJoin (r : outcome)   (* 110-114: join *)
| MDone (r : outcome).

(** The worker thread (mod.rs:225-252). *)
Inductive wpc := WNone | WBuilding | WRunning | WGone (panicked : bool).

Record st := {
  main : mpc;
  worker : wpc;
  status : option bool;   (* the startup message: Some true = Ok, Some false = Err *)
  box : list req;         (* the channel to the worker *)
  sent : list req;        (* everything the channel ever accepted *)
  handled : list req;     (* everything the worker ever took *)
  refused : list req;     (* sends that failed because the worker is gone *)
  served : nat            (* calls of serve that have begun *)
}.

Definition init : st :=
  {| main := MBuild; worker := WNone; status := None; box := []; sent := [];
     handled := []; refused := []; served := 0 |}.

Definition set_main (s : st) (m : mpc) : st :=
  {| main := m; worker := worker s; status := status s; box := box s; sent := sent s;
     handled := handled s; refused := refused s; served := served s |}.

Definition set_worker (s : st) (w : wpc) (msg : option bool) : st :=
  {| main := main s; worker := w; status := msg; box := box s; sent := sent s;
     handled := handled s; refused := refused s; served := served s |}.

Definition begin_serve (s : st) : st :=
  {| main := MServing; worker := worker s; status := status s; box := box s; sent := sent s;
     handled := handled s; refused := refused s; served := S (served s) |}.

(** mpsc: a send fails once the receiver is dropped: the receiver moves into the
    worker (mod.rs:254-276), so it is dropped when the worker ends, and with the
    closure when the thread cannot be created. *)
Definition send (s : st) (r : req) : st :=
  match worker s with
  | WBuilding | WRunning =>
      {| main := main s; worker := worker s; status := status s; box := box s ++ [r];
         sent := sent s ++ [r]; handled := handled s; refused := refused s; served := served s |}
  | _ =>
      {| main := main s; worker := worker s; status := status s; box := box s; sent := sent s;
         handled := handled s; refused := refused s ++ [r]; served := served s |}
  end.

(** One step of the main thread; [None]: it blocks (or has returned). *)
Definition step_main (c : cfg) (s : st) (o : outcome) : option st :=
  match main s with
  | MBuild =>
      match o with
      | ROk => Some (set_main s MSpawn)
      | r => Some (set_main s (MDone r))          (* no environment yet: nothing to drop *)
      end
  | MSpawn =>
      if has_metadata c then
        match o with
        | ROk => Some (set_main (set_worker s WBuilding None) MWait)
        | r => Some (set_main s (MStop r))
        end
      else Some (set_main s MRpc)
  | MWait =>
      match status s with
      | Some true => Some (set_main s MRpc)
      | Some false => Some (set_main s (MStop RErr))
      | None =>
          match worker s with
          | WGone _ => Some (set_main s (MStop RErr))   (* the sender was dropped *)
          | _ => None
          end
      end
  | MRpc =>
      match o with
      | ROk => Some (begin_serve s)
      | r => Some (set_main s (MStop r))
      end
  | MServing =>
      match o with
      | ROk => if forever c then Some (begin_serve s) else Some (set_main s (MStop ROk))
      | r => Some (set_main s (MStop r))
      end
  | MStop r =>
      Some (set_main (if has_metadata c then send s RShutdown else s) (MJoin r))
  | MJoin r =>
      match worker s with
      | WNone | WGone _ => Some (set_main s (MDone r))
      | _ => None
      end
  | MDone _ => None
  end.

(** One step of the worker: it is built and reports, or goes once round
    [BgWorker::run] (bgworker.rs:109-116): when it is idle it waits for a request;
    it takes everything that is there; [update] may panic; after a Shutdown it
    returns. *)
Definition step_worker (s : st) (o : outcome) (busy : bool) : option st :=
  match worker s with
  | WBuilding =>
      match o with
      | ROk => Some (set_worker s WRunning (Some true))
      | RErr => Some (set_worker s (WGone false) (Some false))
      | RPanic => Some (set_worker s (WGone true) None)
      end
  | WRunning =>
      if negb busy && match box s with [] => true | _ => false end then None
      else Some
        {| main := main s;
           worker := match o with
                     | RPanic => WGone true
                     | _ => if existsb is_shutdown (box s) then WGone false else WRunning
                     end;
           status := status s; box := []; sent := sent s; handled := handled s ++ box s;
           refused := refused s; served := served s |}
  | _ => None
  end.

Inductive event :=
| EMain (o : outcome)
| EWorker (o : outcome) (busy : bool)
| EGuest (r : req).     (* an I/O thread of the backend asks for a stripe (bdev_lazy/device.rs:98-129);
                           these threads live inside serve *)

Definition step (c : cfg) (s : st) (e : event) : option st :=
  match e with
  | EMain o => step_main c s o
  | EWorker o b => step_worker s o b
  | EGuest r =>
      match main s, is_shutdown r with
      | MServing, false => if has_metadata c then Some (send s r) else None
      | _, _ => None
      end
  end.

(** Runs. *)
Inductive reach (c : cfg) : st -> Prop :=
| reach_init : reach c init
| reach_step : forall s e s', reach c s -> step c s e = Some s' -> reach c s'.
