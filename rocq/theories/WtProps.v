(** C74: with tuning.write_through an acknowledged write survives a power failure without
    a flush, also on a device whose stripes are still being fetched. *)
From Coq Require Import List Arith NArith Bool Lia.
Import ListNotations.
From Verif Require Import Base DiskSpec TraceSpec TraceFacts LazyState LazyModel LazySpec LazySim LazyProofs LazyProps
  SyncModel SyncSpec SyncProps WtSpec WtProofs.

(** Over a write-through base device, the lazy device shows its client what an ordinary disk
    shows a client that flushes after every completion. *)
Theorem C74_write_through : forall (V : Type) (c : cfg V) (base : nat -> V) (h : nat -> N) (es : list (event V)),
  well_configured c h -> base_write_through c base h es ->
  exists d, disk_behaviour (target c) (initial_contents c base h) (flushed_after_each (history c base h es)) d /\
    forall x, x < target c -> cur (d_hist d x) = logical c (reached c base h es) x.
Proof.
  intros V c base h es WC WT. destruct (wt_refines c base h WC es WT) as (d & d' & S & F & B).
  exists d'. split; auto. intros x Hx. rewrite (fl_cur _ _ _ F). now apply sim_logical.
Qed.

(** So a write whose success was reported is seen by every later read, whatever crashes come
    in between; no flush is needed. *)
Theorem C74_acknowledged_writes_survive : forall (V : Type) (c : cfg V) (base : nat -> V) (h : nat -> N) (es : list (event V)),
  well_configured c h -> base_write_through c base h es ->
  reads_see_completed_writes (target c) (history c base h es).
Proof.
  intros V c base h es WC WT. destruct (C74_write_through V c base h es WC WT) as (d & B & _).
  apply flushed_reads. eapply disk_reads_see_writes. exact B.
Qed.

(** The same for the sync file device itself, opened with O_SYNC. *)
Theorem C74_file_device : forall (V : Type) (us : N) (per : nat) (readonly : bool) (len nsec : nat) (contents : nat -> V)
    (es : list (sevent V)) (s : sdev V) (tr : list (titem V)),
  (us * N.of_nat per = 512)%N -> (N.of_nat len < 2 ^ 63)%N -> open_device len = Ok nsec ->
  Forall (call_in_range per nsec) es ->
  srun us per readonly true (new_sdev (N.to_nat (N.of_nat len / us)) contents) es = Some (s, tr) ->
  reads_see_completed_writes (nsec * per) tr.
Proof.
  intros V us per ro len nsec contents es s tr U B O C R.
  destruct (C72_write_through V us per ro len nsec contents es s tr U B O C R) as (d & D & _).
  apply flushed_reads. eapply disk_reads_see_writes. exact D.
Qed.

(** ** The theorems apply *)
Definition ex_wt := ex_fetch ++ ex_record ++ [EApply 1 0; EDone 1 true; ECrash (fun _ => 0) (fun _ => 1)].

(** A write to a stripe that had to be fetched, acknowledged; the power fails, and nothing of
    the metadata that was not flushed survives; the data is read back. *)
Example C74_nonvacuous :
  base_write_through ex_cfg ex_base ex_h ex_wt /\
  logical ex_cfg (reached ex_cfg ex_base ex_h ex_wt) 1 = Some 55 /\
  history ex_cfg ex_base ex_h ex_wt = [TIssue 1 0 7 (RWrite 1 [55]); TDone 1 0 7 true []; TCrash].
Proof.
  split; [|split; vm_compute; reflexivity].
  intros es1 pb pm es2 E s x Hx.
  assert (es2 = [] /\ es1 = ex_fetch ++ ex_record ++ [EApply 1 0; EDone 1 true] /\ pb = (fun _ => 0)) as (-> & -> & ->).
  { unfold ex_wt in E. rewrite !app_assoc in E. change [EApply 1 0; EDone 1 true; ECrash (fun _ => 0) (fun _ => 1)] with ([EApply 1 0; EDone 1 true] ++ [@ECrash nat (fun _ => 0) (fun _ => 1)]) in E.
    destruct es2 as [|e es2 _] using rev_ind.
    - rewrite !app_assoc in E. apply app_inj_tail in E as (E & F). split; auto. split; [now rewrite <- E, <- !app_assoc|]. congruence.
    - exfalso. rewrite app_comm_cons, !app_assoc in E. apply app_inj_tail in E as (E & _).
      assert (X : existsb is_crash ((ex_fetch ++ ex_record) ++ [EApply 1 0; EDone 1 true]) = false) by reflexivity.
      rewrite E, existsb_app in X. cbn in X. now rewrite orb_true_r in X. }
  apply kept_0.
Qed.

(** Without write-through the same write may be lost. *)
Example C74_not_without : exists es,
  history ex_cfg ex_base ex_h es = [TIssue 1 0 7 (RWrite 1 [55]); TDone 1 0 7 true []; TCrash] /\
  logical ex_cfg (reached ex_cfg ex_base ex_h es) 1 <> Some 55 /\ ~ base_write_through ex_cfg ex_base ex_h es.
Proof.
  exists (ex_fetch ++ ex_record ++ [EApply 1 0; EDone 1 true] ++ [ECrash (fun _ => 1) (fun _ => 0)]).
  split; [vm_compute; reflexivity|]. split; [vm_compute; discriminate|]. intros WT.
  specialize (WT (ex_fetch ++ ex_record ++ [EApply 1 0; EDone 1 true]) (fun _ => 1) (fun _ => 0) []).
  cbn zeta in WT. rewrite !app_assoc in WT. specialize (WT eq_refl 1 ltac:(vm_compute; lia)). revert WT. vm_compute. discriminate.
Qed.

Print Assumptions C74_write_through.
Print Assumptions C74_acknowledged_writes_survive.
Print Assumptions C74_file_device.
