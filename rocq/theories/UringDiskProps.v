(** C81: the io_uring file device (tuning.io_engine = "io_uring", the default) is a
    disk, and with write_through a write-through one. *)
From Coq Require Import List Arith NArith ZArith Bool Lia ZifyBool ZifyNat ZifyN.
Import ListNotations.
From Verif Require Import Base BaseFacts ListFacts DiskSpec TraceSpec TraceFacts SyncModel SyncSpec WtSpec WtProofs
  UringDiskModel UringDiskSpec UringDiskProofs.

Ltac Zify.zify_post_hook ::= Z.div_mod_to_equations.

Lemma opened : forall qs len nsec, (len < 2 ^ 63)%N -> open_uring qs len = Ok nsec -> (nsec < 2 ^ 55)%N /\ (512 * nsec = len)%N.
Proof.
  intros qs len nsec B H. unfold open_uring in H. destruct (negb _); [discriminate|].
  destruct (N.eqb_spec (len mod 512) 0); [|discriminate].
  cbn [negb] in H. assert (En : nsec = (len / 512)%N) by congruence. clear H. change (2 ^ 63)%N with (2 ^ 55 * 256)%N in B.
  set (b := (2 ^ 55)%N) in *. clearbody b. split; lia.
Qed.

(** For every file of whole sectors and every size of the submission queue, every
    sequence of calls that keeps the contract on any number of channels, and whatever
    order the kernel takes up, works on, and completes requests in, sector after sector
    or byte after byte ([us = 512] or [us = 1]) and whatever of them it fails, and at
    power failures, what the callers see is the history of an ordinary disk; the file
    holds what that disk holds. *)
Theorem C81_io_uring_device_is_a_disk :
  forall (V : Type) (us : N) (per : nat) (readonly osync : bool) (queue_size len nsec : N) (contents : nat -> V)
    (es : list (fevent V)) (s : fdev V) (tr : list (titem V)),
  (us * N.of_nat per = 512)%N -> (len < 2 ^ 63)%N -> open_uring queue_size len = Ok nsec ->
  let entries := N.to_nat queue_size in
  let start := new_fdev (N.to_nat (len / us)) contents in
  calls_ok us per readonly osync entries (N.to_nat nsec) start es -> no_short_transfers es ->
  frun us per readonly osync entries start es = Some (s, tr) ->
  exists d, disk_behaviour (N.to_nat nsec * per) contents tr d /\
    forall x, cur (d_hist d x) = cur_cell (f_cell s x).
Proof.
  intros V us per ro osync qs len nsec contents es s tr U B O entries start C Ns R. destruct (opened _ _ _ B O) as (Hn & _).
  destruct (sim_run us per U ro osync entries (N.to_nat nsec) ltac:(lia) false ltac:(discriminate) es start
    (new_disk contents) s tr) as (es' & d & Rd & I); auto.
  - apply (sim_init us); auto; try discriminate; lia.
  - exists d. split.
    + exists es'. rewrite Rd. f_equal. f_equal. clear. induction tr as [|t tr IH]; cbn; [auto|]. now rewrite IH.
    + intros x. eapply hist_cur; eauto.
Qed.

(** With write_through (O_SYNC; then add_flush does nothing), the caller need not flush:
    what it sees is what it would see if it flushed after every successful request. *)
Theorem C81_write_through :
  forall (V : Type) (us : N) (per : nat) (readonly : bool) (queue_size len nsec : N) (contents : nat -> V)
    (es : list (fevent V)) (s : fdev V) (tr : list (titem V)),
  (us * N.of_nat per = 512)%N -> (len < 2 ^ 63)%N -> open_uring queue_size len = Ok nsec ->
  let entries := N.to_nat queue_size in
  let start := new_fdev (N.to_nat (len / us)) contents in
  calls_ok us per readonly true entries (N.to_nat nsec) start es -> no_short_transfers es ->
  frun us per readonly true entries start es = Some (s, tr) ->
  exists d, disk_behaviour (N.to_nat nsec * per) contents (flushed_after_each tr) d /\
    forall x, cur (d_hist d x) = cur_cell (f_cell s x).
Proof.
  intros V us per ro qs len nsec contents es s tr U B O entries start C Ns R. destruct (opened _ _ _ B O) as (Hn & _).
  destruct (sim_run us per U ro true entries (N.to_nat nsec) ltac:(lia) true ltac:(auto) es start
    (new_disk contents) s tr) as (es' & d & Rd & I); auto.
  - apply (sim_init us); auto; try discriminate; lia.
  - exists d. split; [now exists es'|]. intros x. eapply hist_cur; eauto.
Qed.

(** In terms of the caller alone: reads return initial contents or written data, a read
    after a completed write (and, across power failures, a flush) returns it, and with
    write_through no flush is needed. *)
Theorem C81_reads :
  forall (V : Type) (us : N) (per : nat) (readonly osync : bool) (queue_size len nsec : N) (contents : nat -> V)
    (es : list (fevent V)) (s : fdev V) (tr : list (titem V)),
  (us * N.of_nat per = 512)%N -> (len < 2 ^ 63)%N -> open_uring queue_size len = Ok nsec ->
  let entries := N.to_nat queue_size in
  let start := new_fdev (N.to_nat (len / us)) contents in
  calls_ok us per readonly osync entries (N.to_nat nsec) start es -> no_short_transfers es ->
  frun us per readonly osync entries start es = Some (s, tr) ->
  completions_match tr /\ reads_return_written (N.to_nat nsec * per) contents tr /\
  reads_see_writes (N.to_nat nsec * per) tr /\
  (osync = true -> reads_see_completed_writes (N.to_nat nsec * per) tr).
Proof.
  intros V us per ro osync qs len nsec contents es s tr U B O entries start C Ns R.
  destruct (C81_io_uring_device_is_a_disk V us per ro osync qs len nsec contents es s tr U B O C Ns R) as (d & D & _).
  split; [eapply disk_completions_match; eauto|]. split; [eapply disk_reads_return_written; eauto|].
  split; [eapply disk_reads_see_writes; eauto|]. intros ->.
  destruct (C81_write_through V us per ro qs len nsec contents es s tr U B O C Ns R) as (d' & D' & _).
  apply flushed_reads. eapply disk_reads_see_writes. exact D'.
Qed.

(** A device opened read-only never changes the file, whatever its callers do. *)
Lemma report_all_file : forall V l (s : fdev V), f_cell (fst (report_all l s)) = f_cell s /\ f_len (fst (report_all l s)) = f_len s.
Proof.
  intros V. induction l as [|n l IH]; intros s; [auto|]. cbn [report_all]. specialize (IH (forget n s)).
  destruct (report_all l (forget n s)) as [s' t]. exact IH.
Qed.

Theorem C81_read_only :
  forall (V : Type) (us : N) (per : nat) (osync : bool) (entries len : nat) (contents : nat -> V)
    (es : list (fevent V)) (s : fdev V) (tr : list (titem V)),
  frun us per true osync entries (new_fdev len contents) es = Some (s, tr) ->
  f_len s = len /\ forall x, exists t n, f_cell s x = [mk_cell t n (contents x)].
Proof.
  intros V us per osync entries len contents es s tr R.
  assert (G : forall es (s0 s1 : fdev V) tr1, (f_len s0 = len /\ forall x, exists t n, f_cell s0 x = [mk_cell t n (contents x)]) ->
    frun us per true osync entries s0 es = Some (s1, tr1) -> f_len s1 = len /\ forall x, exists t n, f_cell s1 x = [mk_cell t n (contents x)]).
  { clear. induction es as [|e es IH]; intros s0 s1 tr1 J H; cbn [frun] in H.
    - injection H as <- <-. exact J.
    - destruct (fstep us per true osync entries s0 e) as [[s2 t2]|] eqn:E; [|discriminate].
      destruct (frun us per true osync entries s2 es) as [[s3 t3]|] eqn:E3; [|discriminate]. injection H as <- <-.
      eapply IH; [|exact E3]. clear - J E. destruct e; cbn [fstep] in E; unfold push in E.
      + injection E as <- <-. exact J.
      + destruct (f_used s0 n); [discriminate|]. destruct (_ <? _); injection E as <- <-; exact J.
      + destruct (f_used s0 n); [discriminate|]. destruct (_ <? _); injection E as <- <-; exact J.
      + destruct (f_used s0 n); [discriminate|]. destruct osync; [|destruct (_ <? _)]; injection E as <- <-; exact J.
      + injection E as <- <-. exact J.
      + destruct (f_op s0 n) as [[q id [off ln b|off ln b|] [|mv si|]]|]; try discriminate.
        * destruct (cur_cell _); [|discriminate]. destruct (_ && _ && _); [|discriminate]. injection E as <- <-. exact J.
        * destruct (nth_error _ _); [|discriminate]. rewrite andb_false_r in E. discriminate.
      + destruct (f_op s0 n) as [[q id w [|mv si|]]|]; try discriminate. destruct (possible w mv r); [|discriminate].
        injection E as <- <-. cbn [f_len f_cell]. split; [apply J|]. intros x. destruct J as [_ J]. destruct (J x) as (t & m & ->).
        unfold stored. destruct w; cbn; eauto; repeat match goal with |- context [if ?c then _ else _] => destruct c end; eauto.
      + match type of E with context [report_all ?l ?s] => destruct (report_all_file V l s) as [A B]; destruct (report_all l s) as [s' t'] end.
        injection E as <- _. cbn [fst] in A, B. rewrite A, B. exact J.
      + injection E as <- <-. cbn [f_len f_cell]. split; [apply J|]. intros x. destruct J as [_ J]. destruct (J x) as (t & m & ->).
        unfold crashed_cells. destruct (nth_error _ _) as [e|] eqn:En; [|cbn; eauto].
        apply nth_error_In in En. destruct En as [<-|[]]. cbn. eauto. }
  eapply G; [|exact R]. split; [reflexivity|]. intros x. cbn. eauto.
Qed.

(** ** What the theorems leave out *)

(** A short transfer: poll takes every result that is not negative for success
    (bdev_uring.rs:144-149).  A read of two sectors of which the kernel transferred one
    is reported successful, with the buffer's old contents for the other. *)
Definition short_read : list (fevent nat) :=
  [FFill 0 [99; 99]; FRead 1 0 7 0 2 0; FSubmit 0 1; FMove 1 0; FComplete 1 (Short 1); FPoll 0].

Theorem C81_refuted_short_read : exists s tr,
  frun 512 1 false false 4 (new_fdev 2 (fun _ => 5)) short_read = Some (s, tr) /\
  tr = [TIssue 1 0 7 (RRead 0 2); TDone 1 0 7 true [Some 5; Some 99]] /\
  ~ exists d, disk_behaviour 2 (fun _ => 5) tr d.
Proof.
  eexists _, _. split; [vm_compute; reflexivity|]. split; [reflexivity|]. intros (d & D).
  apply disk_reads_return_written in D.
  destruct (D [TIssue 1 0 7 (RRead 0 2)] 1 0 7 [Some 5; Some 99] [] 0 2 eq_refl (or_introl eq_refl)) as (_ & _ & H).
  destruct (H 1 99 eq_refl) as [E|(m & q & id & r & [E|[]] & Hc)]; [discriminate|]. injection E as _ _ _ <-. exact Hc.
Qed.

(** A write of two sectors of which the kernel transferred one is reported successful;
    what is read then is old. *)
Definition short_write : list (fevent nat) :=
  [FFill 0 [7; 8]; FWrite 1 0 7 0 2 0; FSubmit 0 1; FMove 1 0; FComplete 1 (Short 1); FPoll 0;
   FFill 0 [0]; FRead 2 0 7 1 1 0; FSubmit 0 1; FMove 2 0; FComplete 2 Full; FPoll 0].

Theorem C81_refuted_short_write : exists s tr,
  frun 512 1 false false 4 (new_fdev 2 (fun _ => 5)) short_write = Some (s, tr) /\
  tr = [TIssue 1 0 7 (RWrite 0 [7; 8]); TDone 1 0 7 true []; TIssue 2 0 7 (RRead 1 1); TDone 2 0 7 true [Some 5]] /\
  ~ exists d, disk_behaviour 2 (fun _ => 5) tr d.
Proof.
  eexists _, _. split; [vm_compute; reflexivity|]. split; [reflexivity|]. intros (d & D).
  apply disk_reads_see_writes in D.
  assert (H := D [] 1 0 7 (RWrite 0 [7; 8]) [] 0 7 [] [] 2 0 7 1 1 [] 0 7 [Some 5] [] 1 0 8 eq_refl).
  cut (Some (Some 5) = Some (Some 8)); [discriminate|]. apply H; cbn; auto; try lia; try tauto.
  - exists 1. auto.
  - intros n q id r v [].
  - intros n q id r v [].
  - intros n q id r v [].
  - intros n q id r v [].
Qed.

(** [sector_count * SECTOR_SIZE] is a product of 32-bit numbers: a read of 4 GiB asks the
    kernel for nothing, and is reported successful with nothing read. *)
Definition four_gib : nat := N.to_nat (2 ^ 23).
Definition large_read : list (fevent nat) :=
  [FFill 0 (repeat 99 four_gib); FRead 1 0 7 0 four_gib 0; FSubmit 0 1; FComplete 1 Full; FPoll 0].

Theorem C81_refuted_large_read : exists s tr,
  open_uring 4 (2 ^ 32) = Ok (2 ^ 23)%N /\
  frun 512 1 false false 4 (new_fdev four_gib (fun _ => 5)) large_read = Some (s, tr) /\
  tr = [TIssue 1 0 7 (RRead 0 four_gib); TDone 1 0 7 true []] /\
  ~ exists d, disk_behaviour four_gib (fun _ => 5) tr d.
Proof.
  assert (E : units 512 (byte_length four_gib) = 0) by (unfold byte_length, four_gib; rewrite N2Nat.id; reflexivity).
  assert (P : 0 < four_gib) by (unfold four_gib; lia).
  unfold large_read. generalize dependent four_gib. intros g E P.
  eexists _, _. split; [reflexivity|]. split.
  - cbn [frun fstep new_fdev f_used Nat.eqb]. rewrite E. cbn. reflexivity.
  - rewrite Nat.mul_1_r. split; [reflexivity|]. intros (d & D). apply disk_reads_return_written in D.
    destruct (D [TIssue 1 0 7 (RRead 0 g)] 1 0 7 [] [] 0 g eq_refl (or_introl eq_refl)) as (H & _). cbn in H. lia.
Qed.

(** ** The theorems apply *)
Lemma run_check : forall {V} us per ro os en (s : fdev V) es (P : fdev V -> list (titem V) -> Prop),
  (match frun us per ro os en s es with Some (s', tr) => P s' tr | None => False end) ->
  exists s' tr, frun us per ro os en s es = Some (s', tr) /\ P s' tr.
Proof. intros V us per ro os en s es P H. destruct (frun _ _ _ _ _ s es) as [[s' tr]|]; [eauto|contradiction]. Qed.

(** Two channels with a submission queue of two entries: two writes and a flush on
    channel 0, of which the flush finds the queue full; a read of channel 1 while the
    kernel is at both writes, which overlap; then a flush, and a write that does not
    survive the power failure. *)
Definition ex_run : list (fevent nat) :=
  [ FFill 0 [10; 11]; FFill 1 [20; 21]; FFill 2 [77; 77; 77];
    FWrite 1 0 5 0 2 0; FWrite 2 0 6 1 2 1; FFlush 3 0 7; FRead 4 1 5 0 3 2;
    FSubmit 0 2; FSubmit 1 1; FMove 2 0; FMove 4 1; FMove 1 1; FMove 4 0; FMove 1 0; FComplete 1 Full; FMove 2 1; FMove 4 2;
    FComplete 4 Full; FComplete 2 Full; FPoll 1; FPoll 0;
    FFlush 6 0 7; FSubmit 0 5; FComplete 6 Full; FPoll 0;
    FFill 1 [30]; FWrite 7 0 6 1 1 1; FSubmit 0 1; FMove 7 0; FComplete 7 Full; FPoll 0;
    FCrash (fun _ => 1);
    FFill 0 [0; 0; 0]; FRead 8 1 5 0 3 0; FSubmit 1 1; FMove 8 0; FMove 8 1; FMove 8 2; FComplete 8 Full; FPoll 1 ].

Ltac no_op := let H := fresh in intros ? ? H; cbv in H;
  repeat match type of H with
         | match ?x with _ => _ end = _ => destruct x
         end; first [discriminate H | injection H as <-; discriminate].

Example C81_nonvacuous :
  open_uring 2 1536 = Ok 3%N /\
  calls_ok 512 1 false false 2 3 (new_fdev 3 (fun x => x)) ex_run /\ no_short_transfers ex_run /\
  exists s tr, frun 512 1 false false 2 (new_fdev 3 (fun x => x)) ex_run = Some (s, tr) /\
    tr = [ TIssue 1 0 5 (RWrite 0 [10; 11]); TIssue 2 0 6 (RWrite 1 [20; 21]); TIssue 3 0 7 RFlush; TIssue 4 1 5 (RRead 0 3);
           TDone 4 1 5 true [Some 0; Some 20; Some 21]; TDone 3 0 7 false []; TDone 1 0 5 true []; TDone 2 0 6 true [];
           TIssue 6 0 7 RFlush; TDone 6 0 7 true []; TIssue 7 0 6 (RWrite 1 [30]); TDone 7 0 6 true []; TCrash;
           TIssue 8 1 5 (RRead 0 3); TDone 8 1 5 true [Some 10; Some 11; Some 21] ].
Proof.
  split; [reflexivity|]. split; [|split].
  - unfold ex_run. cbn [calls_ok].
    repeat (split; [first [exact I | no_op | (split; [no_op|split; [cbv; lia|split; [reflexivity|cbv; lia]]])]|];
            match goal with |- match ?x with _ => _ end => let y := eval vm_compute in x in change x with y; cbv iota beta end).
    exact I.
  - intros n k H. cbn in H. repeat (destruct H as [H|H]; [discriminate H|]). exact H.
  - apply run_check. vm_compute. reflexivity.
Qed.

(** The same write with O_SYNC survives. *)
Example C81_write_through_nonvacuous :
  let es := [ FFill 0 [9]; FWrite 1 0 6 1 1 0; FSubmit 0 1; FMove 1 0; FComplete 1 Full; FPoll 0; FFlush 2 0 3; FPoll 0; FCrash (fun _ => 1) ] in
  calls_ok 512 1 false true 2 3 (new_fdev 3 (fun x => x)) es /\ no_short_transfers es /\
  (exists s tr, frun 512 1 false true 2 (new_fdev 3 (fun x => x)) es = Some (s, tr) /\ cur_cell (f_cell s 1) = Some 9 /\
     tr = [TIssue 1 0 6 (RWrite 1 [9]); TDone 1 0 6 true []; TIssue 2 0 3 RFlush; TDone 2 0 3 true []; TCrash]) /\
  (exists s tr, frun 512 1 false false 2 (new_fdev 3 (fun x => x)) (firstn 6 es ++ [FCrash (fun _ => 1)]) = Some (s, tr) /\
     cur_cell (f_cell s 1) = Some 1).
Proof.
  cbv zeta. split; [|split; [|split]].
  - cbn [calls_ok].
    repeat (split; [first [exact I | no_op | (split; [no_op|split; [cbv; lia|split; [reflexivity|cbv; lia]]])]|];
            match goal with |- match ?x with _ => _ end => let y := eval vm_compute in x in change x with y; cbv iota beta end).
    exact I.
  - intros n k H. cbn in H. repeat (destruct H as [H|H]; [discriminate H|]). exact H.
  - apply run_check. vm_compute. split; reflexivity.
  - apply run_check. vm_compute. reflexivity.
Qed.

(** Opened read-only: the write fails, and what is read is the old contents. *)
Example C81_read_only_nonvacuous : exists s tr,
  frun 512 1 true false 4 (new_fdev 2 (fun x => x))
    [FFill 0 [9]; FWrite 1 0 6 1 1 0; FSubmit 0 1; FComplete 1 Failed; FPoll 0; FRead 2 0 6 1 1 0; FSubmit 0 1; FMove 2 0; FComplete 2 Full; FPoll 0]
    = Some (s, tr) /\
  tr = [TIssue 1 0 6 (RWrite 1 [9]); TDone 1 0 6 false []; TIssue 2 0 6 (RRead 1 1); TDone 2 0 6 true [Some 1]].
Proof. apply run_check. vm_compute. reflexivity. Qed.

Print Assumptions C81_io_uring_device_is_a_disk.
Print Assumptions C81_write_through.
Print Assumptions C81_reads.
Print Assumptions C81_read_only.
Print Assumptions C81_refuted_short_read.
Print Assumptions C81_refuted_short_write.
Print Assumptions C81_refuted_large_read.
