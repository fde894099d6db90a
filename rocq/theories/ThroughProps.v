(** C85: with tuning.write_through, acknowledged writes survive power failures, for guests
    of the whole backend.

    As in C84, [launch w xts c blank] is a backend coming up in the world [w] with the
    configuration [c], and [at_work] its device at work over the files of that world. *)
From Coq Require Import List Arith NArith ZArith Bool Lia ZifyBool ZifyNat ZifyN.
Import ListNotations.
From Verif Require Import Base BaseFacts DiskSpec TraceSpec TraceFacts MetadataModel LazyState LazyModel LazySpec CryptModel CryptSpec SetupModel SetupSpec SetupProps
  LayerSpec LayerModel SyncModel UringDiskModel UringDiskSpec UringDiskProps CryptOpenModel CryptOpenSpec CryptOpenCheck CryptOpenProps StackModel StackSpec StackProofs StackProps.
From Verif Require Import SyncSpec WtSpec WtProofs AheadFacts KeptFacts ThroughProofs.
From Verif Require LayerProps GuestModel GuestSpec GuestProofs GuestProps UblkDiskSpec UblkDiskProofs UblkDiskProps.
Local Open Scope nat_scope.

(** ** What guests and the driver see *)

(** All a guest notes of a backend with write-through is what a guest of an ordinary disk
    with a volatile cache notes if a flush succeeds after each completed request.  The disk
    is that of C84: at first it holds the configured contents, at the end what the files
    then hold. *)
Theorem C85_guest_write_through : forall w (xts : xts_type) c blank l g fin
  valid qsize did nslots bufsize m0 gs P gtr,
  c_through c = true ->
  source_matches w c -> whole_sectors w -> cipher_ok (cipher_of xts c) ->
  launch w xts c blank = Ok l -> (forall k h, l_lazy l = Some (k, h) -> well_configured k h) ->
  at_work xts w l g fin ->
  GuestSpec.session valid qsize did nslots bufsize (sector_count (l_bdev l)) m0 gs P g gtr ->
  exists d, disk_behaviour (sector_count (l_bdev l)) (configured_contents xts w c l) (flushed_after_each gtr) d /\
    forall x, x < sector_count (l_bdev l) -> cur (d_hist d x) = fin x.
Proof.
  intros w xts c blank l g fin valid qsize did nslots bufsize m0 gs P gtr Th SM W K L WC A S.
  assert (Hc : forall x, x < sector_count (l_bdev l) -> N.of_nat (length (configured_contents xts w c l x)) = 512%N).
  { intros x Hx. rewrite (contents_length w xts c l blank SM W K L WC x Hx). reflexivity. }
  pose proof (LayerProps.C79_backend_keeps_the_contract _ _ _ _ _ _ _ _ _ _ _ _ S Hc) as Hg.
  destruct (work_kept w xts c l blank g fin Th SM K L WC A Hg) as (d & D & E).
  destruct (guest_kept valid qsize did nslots bufsize (sector_count (l_bdev l)) m0 _ gs P g gtr Hc S d D) as (d1 & D1 & J).
  destruct (kept_behaviour _ _ _ _ D1) as (d' & D' & E').
  exists d'. split; [exact D'|]. intros x Hx. rewrite E', <- (E x Hx). exact (f_equal (fun f => cur (f x)) (GuestProofs.i_hist _ _ _ _ _ _ _ J)).
Qed.

(** So every read a guest issues after a write was reported done finds that write, or a
    later one, though the power fails in between and the guest has not flushed. *)
Theorem C85_guest_acknowledged_writes_survive : forall w (xts : xts_type) c blank l g fin
  valid qsize did nslots bufsize m0 gs P gtr,
  c_through c = true ->
  source_matches w c -> whole_sectors w -> cipher_ok (cipher_of xts c) ->
  launch w xts c blank = Ok l -> (forall k h, l_lazy l = Some (k, h) -> well_configured k h) ->
  at_work xts w l g fin ->
  GuestSpec.session valid qsize did nslots bufsize (sector_count (l_bdev l)) m0 gs P g gtr ->
  reads_see_completed_writes (sector_count (l_bdev l)) gtr.
Proof.
  intros w xts c blank l g fin valid qsize did nslots bufsize m0 gs P gtr Th SM W K L WC A S.
  destruct (C85_guest_write_through w xts c blank l g fin valid qsize did nslots bufsize m0 gs P gtr Th SM W K L WC A S) as (d & D & _).
  apply flushed_reads. eapply disk_reads_see_writes. exact D.
Qed.

(** The same for the kernel driver on a ublk backend. *)
Theorem C85_driver_write_through : forall w (xts : xts_type) c blank l g fin max depth us P ktr,
  c_through c = true ->
  source_matches w c -> whole_sectors w -> cipher_ok (cipher_of xts c) ->
  launch w xts c blank = Ok l -> (forall k h, l_lazy l = Some (k, h) -> well_configured k h) ->
  at_work xts w l g fin -> (max < 2 ^ 31)%N ->
  UblkDiskSpec.session max depth (sector_count (l_bdev l)) us P g ktr ->
  exists d, disk_behaviour (sector_count (l_bdev l)) (configured_contents xts w c l) (flushed_after_each ktr) d /\
    forall x, x < sector_count (l_bdev l) -> cur (d_hist d x) = fin x.
Proof.
  intros w xts c blank l g fin max depth us P ktr Th SM W K L WC A Hm S.
  assert (Hc : forall x, x < sector_count (l_bdev l) -> N.of_nat (length (configured_contents xts w c l x)) = 512%N).
  { intros x Hx. rewrite (contents_length w xts c l blank SM W K L WC x Hx). reflexivity. }
  pose proof (UblkDiskProps.C80_keeps_the_contract _ _ _ _ _ _ _ _ Hm S Hc) as Hg.
  destruct (work_kept w xts c l blank g fin Th SM K L WC A Hg) as (d & D & E).
  destruct (ublk_kept max depth (sector_count (l_bdev l)) Hm _ us P g ktr Hc S d D) as (d1 & Es & D1 & J).
  destruct (kept_behaviour _ _ _ _ D1) as (d' & D' & E').
  exists d'. split; [exact D'|]. intros x Hx. rewrite E', <- (E x Hx). eapply ahead_cur, UblkDiskProofs.v_ahead, J.
Qed.

Theorem C85_driver_acknowledged_writes_survive : forall w (xts : xts_type) c blank l g fin max depth us P ktr,
  c_through c = true ->
  source_matches w c -> whole_sectors w -> cipher_ok (cipher_of xts c) ->
  launch w xts c blank = Ok l -> (forall k h, l_lazy l = Some (k, h) -> well_configured k h) ->
  at_work xts w l g fin -> (max < 2 ^ 31)%N ->
  UblkDiskSpec.session max depth (sector_count (l_bdev l)) us P g ktr ->
  reads_see_completed_writes (sector_count (l_bdev l)) ktr.
Proof.
  intros w xts c blank l g fin max depth us P ktr Th SM W K L WC A Hm S.
  destruct (C85_driver_write_through w xts c blank l g fin max depth us P ktr Th SM W K L WC A Hm S) as (d & D & _).
  apply flushed_reads. eapply disk_reads_see_writes. exact D.
Qed.

(** ** Concrete cases *)

Definition wt_config : config :=
  mk_config p_data (Some p_meta) true (Some (CRaw p_image false true)) IoUring 4 true (Some [7%N]) (fun _ => Some ex_key).
Definition wt_plain : config := mk_config [4%N] None false None Sync 4 true None (fun _ => None).

(** The events on the file: with O_SYNC a flush has nothing to submit to the kernel. *)
Definition wt_fes : list (fevent GuestModel.sector) :=
  [ FFill 0 [LayerProps.ex_enc 0 (fill 100); LayerProps.ex_enc 1 (fill 101)]; FWrite 3 0 0 0 2 0; FSubmit 0 1; FMove 3 1; FMove 3 0; FComplete 3 Full; FPoll 0;
    FFlush 4 0 0; FPoll 0;
    FFill 1 [LayerProps.ex_enc 1 (fill 7)]; FWrite 1 1 0 1 1 1; FSubmit 1 1; FMove 1 0; FComplete 1 Full; FPoll 1;
    FFlush 9 1 0; FPoll 1;
    FCrash (fun _ => 0);
    FFill 0 [LayerProps.ex_enc 2 (fill 102); LayerProps.ex_enc 3 (fill 103)]; FWrite 12 0 1 2 2 0; FSubmit 0 1; FMove 12 0; FMove 12 1; FComplete 12 Full; FPoll 0;
    FFlush 13 0 1; FPoll 0;
    FFill 1 (repeat (fill 0) 4); FRead 10 2 2 0 4 1; FSubmit 2 1; FMove 10 3; FMove 10 1; FMove 10 0; FMove 10 2; FComplete 10 Full; FPoll 2 ].

(** The device of C84_guest_nonvacuous, with write-through, and the same session on it. *)
Definition wt_launch := launch ex_world ex_xts (wt_config) (fill 0).
Definition wt_l : launched := match wt_launch with Ok l => l | _ => mk_launched (DFile (mk_opening [] Sync 0 true true true) 0) [] None end.
Definition wt_c : cfg sector := match l_lazy wt_l with Some (c, _) => c | None => GuestProps.ex_cfg end.
Definition wt_hd : nat -> N := match l_lazy wt_l with Some (_, h) => h | None => fun _ => 0%N end.

Lemma wt_launched : launch ex_world ex_xts (wt_config) (fill 0) = Ok wt_l.
Proof.
  unfold wt_l, wt_launch. assert (E : is_err (launch ex_world ex_xts (wt_config) (fill 0)) = false /\
    launch ex_world ex_xts (wt_config) (fill 0) <> Panic).
  { split; [vm_compute; reflexivity|]. apply C84_never_panics; [apply ex_xts_ok|]. intros id k _ X. injection X as <-. vm_compute. lia. }
  destruct E as (E1 & E2). destruct (launch ex_world ex_xts (wt_config) (fill 0)); [reflexivity|discriminate E1|now destruct E2].
Qed.

Lemma wt_lazy_parts : l_lazy wt_l = Some (wt_c, wt_hd).
Proof.
  unfold wt_c, wt_hd. assert (E : match l_lazy wt_l with Some _ => true | None => false end = true) by (vm_compute; reflexivity).
  destruct (l_lazy wt_l) as [[c h]|]; [reflexivity|discriminate E].
Qed.

Lemma wt_configured : well_configured wt_c wt_hd.
Proof.
  assert (E : (ssc wt_c, nst wt_c, hps wt_c, target wt_c, src wt_c) = (2, 3, 508, 6, 4)) by (vm_compute; reflexivity).
  assert (F : map wt_hd [0; 1; 2] = [FLAG_HAS_SOURCE; FLAG_HAS_SOURCE; 0%N]) by (vm_compute; reflexivity).
  generalize dependent wt_c. generalize dependent wt_hd. intros h F c E. injection E as E1 E2 E3 E4 E5. injection F as F1 F2 F3.
  assert (H : forall st, st < 3 -> h st = if st <? 2 then FLAG_HAS_SOURCE else 0%N).
  { intros [|[|[|st]]] Hst; auto. lia. }
  constructor; rewrite ?E1, ?E2, ?E3, ?E4, ?E5; try lia.
  - vm_compute. lia.
  - intros x Hx Hn Hf. left. rewrite H in Hf by exact Hn. destruct (x / 2 <? 2) eqn:L; [|discriminate]. apply Nat.ltb_lt in L. lia.
  - intros st Hst Hf. rewrite H in Hf by exact Hst. destruct (st <? 2); discriminate.
Qed.

Lemma wt_fit : LayerProps.requests_fit wt_c LayerProps.ex_open.
Proof.
  assert (E : (ssc wt_c, nst wt_c) = (2, 3)) by (vm_compute; reflexivity). generalize dependent wt_c. intros c E. injection E as E1 E2.
  destruct LayerProps.C79_nonvacuous as (_ & _ & F & _). intros q id r H. specialize (F q id r H).
  unfold in_bounds in *. rewrite E1, E2. exact F.
Qed.

Example C85_guest_nonvacuous :
  let c := wt_config in
  c_through c = true /\ source_matches ex_world c /\ whole_sectors ex_world /\ cipher_ok (cipher_of ex_xts c) /\
  launch ex_world ex_xts c (fill 0) = Ok wt_l /\ (forall k h, l_lazy wt_l = Some (k, h) -> well_configured k h) /\
  (exists fin, at_work ex_xts ex_world wt_l GuestProps.ex_tr fin /\ fin 1 = Some (fill 7) /\ fin 2 = Some (fill 102)) /\
  exists gs, GuestSpec.session GuestProps.ex_valid 8 [65%N] 2 512 (sector_count (l_bdev wt_l)) GuestProps.ex_mem gs []
    GuestProps.ex_tr GuestProps.ex_gtr.
Proof.
  split; [reflexivity|]. split; [exact I|]. split; [exact I|]. split; [apply ex_xts_ok|]. split; [exact wt_launched|].
  split. { intros k h E. rewrite wt_lazy_parts in E. apply some_pair in E as (E1 & E2). rewrite <- E1, <- E2. exact wt_configured. }
  assert (Db : match l_bdev wt_l with
               | DLazy (DCrypt k1 k2 (DFile o n)) _ _ => Some (k1, k2, o_path o, o_engine o, o_readonly o, o_sync o, o_entries o, n)
               | _ => None end = Some (firstn 32 ex_key, skipn 32 ex_key, p_data, IoUring, false, true, 4%N, 6)) by (vm_compute; reflexivity).
  destruct (l_bdev wt_l) as [|?|[|k1 k2 [o n| |]|] i tw] eqn:B; try discriminate Db. injection Db as Ek1 Ek2 Ep Ee Er Es Eq En.
  cbn [sector_count]. subst n. split; [|exact GuestProps.C78_nonvacuous].
  assert (E1 : option_map (fun x => (snd (fst x), snd x, map (fun st => released (shf (fst (fst x)) st)) [0; 1]))
            (orun wt_c (oinit wt_c wt_hd) LayerProps.ex_open) = Some (GuestProps.ex_tr, LayerProps.ex_between, [true; true]))
    by (vm_compute; reflexivity).
  destruct (orun wt_c (oinit wt_c wt_hd) LayerProps.ex_open) as [[[so g] b]|] eqn:R1; cbn [option_map fst snd] in E1; [|discriminate E1].
  assert (Eg := f_equal (fun x => match x with Some (y, _, _) => y | None => [] end) E1). assert (Eb := f_equal (fun x => match x with Some (_, y, _) => y | None => [] end) E1).
  assert (Er1 := f_equal (fun x => match x with Some (_, _, y) => y | None => [] end) E1). cbv beta iota in Eg, Eb, Er1. cbn [map] in Er1. clear E1. subst g b.
  set (en := on_sector (fst (ex_xts k1 k2))). set (de := on_sector (snd (ex_xts k1 k2))).
  assert (E2 : option_map (fun x => (snd (fst x), snd x)) (krun en de new_kdev ex_kes) = Some (LayerProps.ex_between, ex_below))
    by (unfold en, de; rewrite Ek1, Ek2; vm_compute; reflexivity).
  destruct (krun en de new_kdev ex_kes) as [[[sk g] b]|] eqn:R2; cbn [option_map fst snd] in E2; [|discriminate E2].
  assert (Eg := f_equal (fun x => match x with Some (y, _) => y | None => [] end) E2). assert (Eb := f_equal (fun x => match x with Some (_, y) => y | None => [] end) E2).
  cbv beta iota in Eg, Eb. clear E2. subst g b.
  assert (E3 : option_map (fun x => (snd x, cur_cell (f_cell (fst x) 1), cur_cell (f_cell (fst x) 2)))
      (frun 512 1 false true 4 (new_fdev 6 (sector_at ex_world p_data)) wt_fes) =
      Some (ex_below, Some (LayerProps.ex_enc 1 (fill 7)), Some (LayerProps.ex_enc 2 (fill 102)))) by (vm_compute; reflexivity).
  destruct (frun 512 1 false true 4 (new_fdev 6 (sector_at ex_world p_data)) wt_fes) as [[f b]|] eqn:R3; cbn [option_map fst snd] in E3; [|discriminate E3].
  assert (Eb := f_equal (fun x => match x with Some (y, _, _) => y | None => [] end) E3). assert (F1 := f_equal (fun x => match x with Some (_, y, _) => y | None => None end) E3).
  assert (F2 := f_equal (fun x => match x with Some (_, _, y) => y | None => None end) E3). cbv beta iota in Eb, F1, F2. clear E3. subst b.
  assert (Ssc : ssc wt_c = 2) by (vm_compute; reflexivity).
  set (fb := fun x => option_map (de x) (cur_cell (f_cell f x))).
  exists (fun x => if released (shf so (x / ssc wt_c)) then fb x else Some (image wt_c x)). split; [|split].
  - unfold at_work. rewrite B, wt_lazy_parts. exists LayerProps.ex_open, so, LayerProps.ex_between, fb.
    split; [exact wt_fit|]. split; [exact R1|]. split; [|reflexivity].
    refine (serves_crypt ex_xts ex_world k1 k2 (DFile o 6) ex_kes sk LayerProps.ex_between ex_below (fun x => cur_cell (f_cell f x)) R2 _ _).
    + apply (all_buffers_sound 14); [intros n _; reflexivity|rewrite Ek1, Ek2; vm_compute; reflexivity].
    + refine (serves_uring ex_xts ex_world o 6 wt_fes f ex_below Ee _ _ _ _); rewrite ?Er, ?Es, ?Eq, ?Ep; try exact R3.
      * reflexivity.
      * apply (calls_sound 14); [intros n _; reflexivity|vm_compute; reflexivity].
      * intros n k H. cbn [wt_fes In] in H. repeat (destruct H as [H|H]; [discriminate H|]). exact H.
  - rewrite Ssc. change (1 / 2) with 0. injection Er1 as -> _. cbv iota. unfold fb. rewrite F1.
    unfold de. rewrite Ek1, Ek2. vm_compute. reflexivity.
  - rewrite Ssc. change (2 / 2) with 1. injection Er1 as _ ->. cbv iota. unfold fb. rewrite F2.
    unfold de. rewrite Ek1, Ek2. vm_compute. reflexivity.
Qed.


(** The driver's session of C80 on a plain file with the sync engine: a write is done, and
    without a flush the power fails. *)
Example C85_driver_nonvacuous :
  c_through wt_plain = true /\ source_matches ex_plain_world wt_plain /\ whole_sectors ex_plain_world /\ cipher_ok (cipher_of ex_xts wt_plain) /\
  exists l, launch ex_plain_world ex_xts wt_plain [] = Ok l /\ (forall k h, l_lazy l = Some (k, h) -> well_configured k h) /\
  (exists fin, at_work ex_xts ex_plain_world l UblkDiskProps.ex_tr fin /\ fin 1 = Some (fill 7)) /\
  exists us, UblkDiskSpec.session 1024 2 (sector_count (l_bdev l)) us [] UblkDiskProps.ex_tr UblkDiskProps.ex_ktr.
Proof.
  split; [reflexivity|]. split; [exact I|]. split; [exact I|]. split; [exact I|]. eexists. split; [vm_compute; reflexivity|]. cbn [l_lazy l_bdev sector_count].
  split; [discriminate|]. split; [|exact (proj1 UblkDiskProps.C80_nonvacuous)].
  assert (E : option_map (fun x => (snd x, SyncModel.cur_cell (s_cell (fst x) 1)))
     (srun 512 1 false true (new_sdev 6 (sector_at ex_plain_world [4%N])) ex_ses) = Some (UblkDiskProps.ex_tr, Some (fill 7))) by (vm_compute; reflexivity).
  destruct (srun 512 1 false true (new_sdev 6 (sector_at ex_plain_world [4%N])) ex_ses) as [[s tr]|] eqn:R; cbn [option_map fst snd] in E; [|discriminate E].
  assert (Et := f_equal (fun x => match x with Some (y, _) => y | None => [] end) E). assert (Ef := f_equal (fun x => match x with Some (_, y) => y | None => None end) E).
  cbv beta iota in Et, Ef. subst tr. exists (fun x => SyncModel.cur_cell (s_cell s x)). split; [|exact Ef]. unfold at_work. cbn [l_bdev l_lazy].
  apply (serves_sync ex_xts ex_plain_world (mk_opening [4%N] Sync 0 false true true) 6 ex_ses s UblkDiskProps.ex_tr).
  - reflexivity.
  - reflexivity.
  - unfold ex_ses. repeat constructor; cbn; lia.
  - exact R.
Qed.


(** Without write-through an acknowledged write may be lost: the same file, opened without
    O_SYNC. *)
Definition lost_tr : list (titem sector) :=
  [TIssue 1 0 0 (RWrite 1 [fill 7]); TDone 1 0 0 true []; TCrash; TIssue 2 0 0 (RRead 1 1); TDone 2 0 0 true [Some (UblkDiskProps.ex_contents 1)]].
Definition lost_ses : list (sevent sector) :=
  [ SWrite 1 0 0 1 1 [fill 7]; SCopy 0 1; SReturn 0 (Moved 1); SPoll 0; SCrash (fun _ => 1);
    SRead 2 0 0 1 1 [fill 0]; SReturn 0 (Moved 1); SPoll 0 ].
Theorem C85_refuted_without_write_through :
  c_through ex_plain = false /\
  exists l, launch ex_plain_world ex_xts ex_plain [] = Ok l /\
  (exists fin, at_work ex_xts ex_plain_world l lost_tr fin) /\
  ~ reads_see_completed_writes (sector_count (l_bdev l)) lost_tr.
Proof.
  split; [reflexivity|]. eexists. split; [vm_compute; reflexivity|]. cbn [l_lazy l_bdev sector_count]. split.
  - assert (E : option_map snd (srun 512 1 false false (new_sdev 6 (sector_at ex_plain_world [4%N])) lost_ses) = Some lost_tr) by (vm_compute; reflexivity).
    destruct (srun 512 1 false false (new_sdev 6 (sector_at ex_plain_world [4%N])) lost_ses) as [[s tr]|] eqn:R; cbn [option_map fst snd] in E; [|discriminate E].
    assert (Et := f_equal (fun x => match x with Some y => y | None => [] end) E). cbv beta iota in Et. subst tr.
    exists (fun x => SyncModel.cur_cell (s_cell s x)). unfold at_work. cbn [l_bdev l_lazy].
    apply (serves_sync ex_xts ex_plain_world (mk_opening [4%N] Sync 0 false true false) 6 lost_ses s lost_tr).
    + reflexivity.
    + reflexivity.
    + unfold lost_ses. repeat constructor; cbn; lia.
    + exact R.
  - intros H. specialize (H [] 1 0 0 (RWrite 1 [fill 7]) [] 0 0 [] [TCrash] 2 0 0 1 1 [] 0 0 [Some (UblkDiskProps.ex_contents 1)] [] 1 0 (fill 7) eq_refl).
    enough (X : nth_error [Some (UblkDiskProps.ex_contents 1)] 0 = Some (Some (fill 7))) by discriminate X.
    apply H; try lia.
    + exists 0. split; reflexivity.
    + intros n q id r v [].
    + intros n q id r v [].
    + intros n q id r v [X|[]]. discriminate X.
    + intros n q id r v [].
    + intros [].
Qed.

Print Assumptions C85_guest_write_through.
Print Assumptions C85_guest_acknowledged_writes_survive.
Print Assumptions C85_driver_write_through.
Print Assumptions C85_driver_acknowledged_writes_survive.
Print Assumptions C85_refuted_without_write_through.
