(** Model of the I/O buffers: src/utils/aligned_buffer.rs and
    src/utils/aligned_buffer_pool.rs, and the alignment chosen for them in
    src/backends/common/mod.rs.  Addresses and lengths are 64-bit. *)
From Coq Require Import List NArith Bool.
Import ListNotations.
From Verif Require Import Base ConfigModel.
Local Open Scope N_scope.

Definition BUFFER_ALIGNMENT : N := 4096.   (* aligned_buffer.rs:2 *)

(** common/mod.rs:186-194 [determine_alignment]: [bsize] is statfs's block size. *)
Definition determine_alignment (bsize : N) : N := N.max BUFFER_ALIGNMENT bsize.

(** aligned_buffer.rs:9-14 [AlignedBuf]; [ab_ptr] is where the vector's storage
    is. *)
Record abuf := mk_abuf { ab_ptr : N; ab_vec : list byte; ab_offset : N; ab_len : N }.

(** aligned_buffer.rs:23-37 [new_with_alignment]; [ptr] is the address the allocator
    returns.  A vector of more than isize::MAX bytes panics; the sum wraps, as in
    release builds. *)
Definition new_with_alignment (ptr len align : N) : res abuf :=
  if (align =? 0) || negb (is_power_of_two align) then Panic
  else
    let cap := (len + align) mod 2 ^ 64 in
    if 2 ^ 63 <=? cap then Panic
    else Ok (mk_abuf ptr (repeat 0 (N.to_nat cap)) ((align - ptr mod align) mod align) len).

(** aligned_buffer.rs:39-41 and 43-45 [as_ptr], [as_mut_ptr]: indexing panics when the
    range leaves the vector. *)
Definition as_ptr (b : abuf) : res N :=
  let! _ := slice (ab_vec b) (N.to_nat (ab_offset b)) (N.to_nat (ab_offset b + ab_len b)) in
  Ok (ab_ptr b + ab_offset b).

(** aligned_buffer.rs:47-49 and 51-53 [as_slice], [as_mut_slice]. *)
Definition as_slice (b : abuf) : res (list byte) :=
  slice (ab_vec b) (N.to_nat (ab_offset b)) (N.to_nat (ab_offset b + ab_len b)).

(** ** The pool *)

(** A [SharedBuffer]: which allocation it is ([Arc::ptr_eq]), and its [id] field. *)
Record shared := mk_shared { sh_arc : nat; sh_id : nat }.

(** aligned_buffer_pool.rs:9-13. *)
Record pool := mk_pool {
  p_buffers : list shared;
  p_available : list nat;
  p_in_use : list bool
}.

(** aligned_buffer_pool.rs:16-30 [new]; [arcs]: the allocations made, one for each of the
    [count] buffers. *)
Definition new_pool (arcs : list nat) : pool :=
  let count := List.length arcs in
  mk_pool (map (fun '(i, a) => mk_shared a i) (combine (seq 0 count) arcs)) (seq 0 count) (repeat false count).

(** aligned_buffer_pool.rs:32-37 [get_buffer]. *)
Definition get_buffer (p : pool) : res (option shared * pool) :=
  match p_available p with
  | [] => Ok (None, p)
  | i :: rest =>
    let! _ := index (p_in_use p) i in
    let! b := index (p_buffers p) i in
    Ok (Some b, mk_pool (p_buffers p) rest (set_nth i true (p_in_use p)))
  end.

(** aligned_buffer_pool.rs:39-60 [return_buffer]. *)
Definition return_buffer (b : shared) (p : pool) : res pool :=
  let i := sh_id b in
  if negb (Nat.ltb i (List.length (p_buffers p))) then Panic
  else
    let! used := index (p_in_use p) i in
    if negb used then Panic
    else
      let! own := index (p_buffers p) i in
      if negb (Nat.eqb (sh_arc b) (sh_arc own)) then Panic
      else Ok (mk_pool (p_buffers p) (p_available p ++ [i]) (set_nth i false (p_in_use p))).

(** aligned_buffer_pool.rs:62-64 [has_available]. *)
Definition has_available (p : pool) : bool := match p_available p with [] => false | _ => true end.

(** A history of calls; it ends at a panic. *)
Inductive pcall := PGet | PReturn (b : shared).
Inductive panswer := AGot (b : option shared) | AReturned | APanic.

Fixpoint prun (p : pool) (cs : list pcall) : list panswer * pool :=
  match cs with
  | [] => ([], p)
  | PGet :: r =>
    match get_buffer p with
    | Ok (b, p') => let (l, q) := prun p' r in (AGot b :: l, q)
    | _ => ([APanic], p)
    end
  | PReturn b :: r =>
    match return_buffer b p with
    | Ok p' => let (l, q) := prun p' r in (AReturned :: l, q)
    | _ => ([APanic], p)
    end
  end.
