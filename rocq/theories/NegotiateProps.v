(** C88: a driver of the vhost-user backend that may take completed writes for durable is
    right to.

    As in C84, [launch w xts c blank] is a backend coming up in the world [w] with the
    configuration [c], and [at_work] its device at work over the files of that world. *)
From Coq Require Import List Arith NArith ZArith Bool Lia ZifyBool ZifyNat ZifyN.
Import ListNotations.
From Verif Require Import Base BaseFacts DiskSpec TraceSpec MetadataModel LazyState LazyModel LazySpec CryptModel CryptSpec SetupModel SetupSpec
  LayerSpec SyncModel StackModel StackSpec StackProofs StackProps SyncSpec WtSpec ThroughProps NegotiateModel NegotiateSpec.
From Verif Require VhostModel VhostProps LayerProps GuestModel GuestSpec GuestProps.
Local Open Scope nat_scope.

(** ** The offer *)

(** Among the offered features are FLUSH and CONFIG_WCE; read-only (5), discard (13),
    write-zeroes (14), the packed ring (34) and in fact all but eleven are not: a driver
    cannot negotiate what the backend does not implement. *)
Theorem C88_offered : forall b,
  N.testbit features b = true <-> In b [1; 2; 6; 9; 10; 11; 12; 28; 29; 30; 32]%N.
Proof.
  intros b. split.
  - intros H. assert (L : (b < 33)%N).
    { destruct (N.lt_ge_cases b 33) as [L|L]; [exact L|]. rewrite N.bits_above_log2 in H; [discriminate|].
      change (N.log2 features) with 32%N. lia. }
    assert (D : forall n, n < 33 -> N.testbit features (N.of_nat n) = true ->
              In (N.of_nat n) [1; 2; 6; 9; 10; 11; 12; 28; 29; 30; 32]%N).
    { intros n Hn T. assert (X : existsb (N.eqb (N.of_nat n)) [1; 2; 6; 9; 10; 11; 12; 28; 29; 30; 32]%N = true).
      { do 33 (destruct n as [|n]; [vm_compute in T |- *; congruence|]). lia. }
      apply existsb_exists in X as (x & Hx & E). apply N.eqb_eq in E. now subst x. }
    rewrite <- (N2Nat.id b) in *. apply D; [lia|exact H].
  - cbn [In]. intros H. repeat (destruct H as [<-|H]; [reflexivity|]). destruct H.
Qed.

(** And of the vhost-user protocol features: MQ (0), CONFIG (9), CONFIGURE_MEM_SLOTS (15). *)
Theorem C88_protocol_offered : forall b, N.testbit protocol_features b = true <-> b = 0%N \/ b = 9%N \/ b = 15%N.
Proof.
  intros b. split.
  - intros H. assert (L : (b < 16)%N).
    { destruct (N.lt_ge_cases b 16) as [L|L]; [exact L|]. rewrite N.bits_above_log2 in H; [discriminate|].
      change (N.log2 protocol_features) with 15%N. lia. }
    assert (D : forall n, n < 16 -> N.testbit protocol_features (N.of_nat n) = true -> n = 0 \/ n = 9 \/ n = 15).
    { intros n Hn T. do 16 (destruct n as [|n]; [vm_compute in T; try discriminate T; tauto|]). lia. }
    specialize (D (N.to_nat b)). rewrite N2Nat.id in D. destruct D as [D|[D|D]]; [lia|exact H|lia|lia|lia].
  - intros [->|[->| ->]]; reflexivity.
Qed.

(** ** The cache mode *)

(** What the driver reads of the mode if it reads the configuration space from its start. *)
Lemma told_writeback : forall ns ssm scm nq wt size, (33 <= size)%N ->
  nth 32 (told ns ssm scm nq wt 0 size) 0%N = if wt then 0%N else 1%N.
Proof.
  intros ns ssm scm nq wt size H. unfold told. rewrite VhostProps.C38_config_bytes by lia.
  unfold VhostModel.vconfig_bytes, VhostModel.build_vconfig. cbn [VhostModel.vc_capacity VhostModel.vc_size_max VhostModel.vc_seg_max
    VhostModel.vc_cylinders VhostModel.vc_heads VhostModel.vc_sectors VhostModel.vc_blk_size VhostModel.vc_physical_block_exp
    VhostModel.vc_alignment_offset VhostModel.vc_min_io_size VhostModel.vc_opt_io_size VhostModel.vc_writeback].
  repeat (rewrite app_nth2; rewrite ?le_bytes_length; [|lia]). cbn [Nat.sub]. destruct wt; reflexivity.
Qed.

(** A driver that negotiated CONFIG_WCE understands the cache to be write-through exactly
    if that is configured; if it negotiated only FLUSH, it never does. *)
Theorem C88_mode_told : forall ns ssm scm nq wt acked size, (33 <= size)%N ->
  N.testbit acked 11 = true \/ N.testbit acked 9 = true ->
  cache_understood acked (nth 32 (told ns ssm scm nq wt 0 size) 0%N) = WriteThrough <->
    N.testbit acked 11 = true /\ wt = true.
Proof.
  intros ns ssm scm nq wt acked size H A. rewrite told_writeback by exact H. unfold cache_understood.
  destruct (N.testbit acked 11).
  - destruct wt; cbn; split; try tauto; try discriminate. intros (_ & E). discriminate E.
  - destruct A as [A|A]; [discriminate A|]. rewrite A. split; [discriminate|intros (E & _); discriminate E].
Qed.

(** And if, from what it negotiated and read, it may take completed writes for durable,
    they are: reads that see them before a power failure see them after it as well.
    (Missing: drivers that negotiate neither CONFIG_WCE nor FLUSH, or read the mode on its
    own.  See the two refutations below.) *)
Theorem C88_write_through_as_told_partial : forall w (xts : xts_type) c blank l g fin
  valid qsize did nslots bufsize m0 gs P gtr ssm scm nq acked size,
  source_matches w c -> whole_sectors w -> cipher_ok (cipher_of xts c) ->
  launch w xts c blank = Ok l -> (forall k h, l_lazy l = Some (k, h) -> well_configured k h) ->
  at_work xts w l g fin ->
  GuestSpec.session valid qsize did nslots bufsize (sector_count (l_bdev l)) m0 gs P g gtr ->
  negotiated features acked ->
  N.testbit acked 11 = true \/ N.testbit acked 9 = true -> (33 <= size)%N ->
  cache_understood acked (nth 32 (told (N.of_nat (sector_count (l_bdev l))) ssm scm nq (c_through c) 0 size) 0%N) = WriteThrough ->
  reads_see_completed_writes (sector_count (l_bdev l)) gtr.
Proof.
  intros w xts c blank l g fin valid qsize did nslots bufsize m0 gs P gtr ssm scm nq acked size SM W K L WC A S _ Hn Hs U.
  apply C88_mode_told in U as (_ & Th); [|exact Hs|exact Hn].
  exact (C85_guest_acknowledged_writes_survive w xts c blank l g fin valid qsize did nslots bufsize m0 gs P gtr Th SM W K L WC A S).
Qed.

(** The session of C85, with a driver that accepts all that is offered, as Linux does. *)
Example C88_nonvacuous :
  let c := wt_config in
  source_matches ex_world c /\ whole_sectors ex_world /\ cipher_ok (cipher_of ex_xts c) /\
  launch ex_world ex_xts c (fill 0) = Ok wt_l /\ (forall k h, l_lazy wt_l = Some (k, h) -> well_configured k h) /\
  (exists fin, at_work ex_xts ex_world wt_l GuestProps.ex_tr fin) /\
  (exists gs, GuestSpec.session GuestProps.ex_valid 8 [65%N] 2 512 (sector_count (l_bdev wt_l)) GuestProps.ex_mem gs []
    GuestProps.ex_tr GuestProps.ex_gtr) /\
  negotiated features features /\ N.testbit features 11 = true /\
  cache_understood features (nth 32 (told (N.of_nat (sector_count (l_bdev wt_l))) 65536 4 1 (c_through c) 0 60) 0%N) = WriteThrough.
Proof.
  cbv zeta. destruct C85_guest_nonvacuous as (_ & H1 & H2 & H3 & H4 & H5 & (fin & H6 & _) & H7).
  split; [exact H1|]. split; [exact H2|]. split; [exact H3|]. split; [exact H4|]. split; [exact H5|]. split; [exists fin; exact H6|]. split; [exact H7|]. split; [intros b E; exact E|]. split; [reflexivity|].
  apply C88_mode_told; [lia|left; reflexivity|split; reflexivity].
Qed.

(** ** Who is misled *)

(** A write is done, the power fails, and the guest reads what was there before. *)
Definition old_found : list (option sector) := map (fun x => Some (sector_at ex_plain_world [4%N] x)) [0; 1; 2; 3].
Definition gone_tr : list (titem sector) :=
  [TIssue 1 0 0 (RWrite 1 [fill 7]); TDone 1 0 0 true []; TCrash; TIssue 10 1 2 (RRead 0 4); TDone 10 1 2 true old_found].
Definition gone_gtr : list (titem sector) :=
  [TIssue 1 0 5 (RWrite 1 [fill 7]); TDone 1 0 5 true []; TCrash; TIssue 10 1 4 (RRead 0 4); TDone 10 1 4 true old_found].
Definition gone_ses : list (sevent sector) :=
  [ SWrite 1 0 0 1 1 [fill 7]; SCopy 0 1; SReturn 0 (Moved 1); SPoll 0; SCrash (fun _ => 1);
    SRead 10 1 2 0 4 (repeat (fill 0) 4); SReturn 1 (Moved 4); SPoll 1 ].

Lemma gone_session : exists gs, GuestSpec.session GuestProps.ex_valid 8 [65%N] 2 512 6 GuestProps.ex_mem gs [] gone_tr gone_gtr.
Proof.
  pose proof (GuestSpec.s_start GuestProps.ex_valid 8 [65%N] 2 512 6 GuestProps.ex_mem) as S. set (g0 := GuestModel.ginit 2 512 GuestProps.ex_mem) in S.
  apply (GuestProps.ex_step g0 _ _ _ (GuestModel.GPop 0 GuestProps.ex_write 1) [GuestSpec.mk_pending 0 5 1 GuestProps.rq_w] [TIssue 1 0 5 (RWrite 1 [fill 7])]) in S;
    [|vm_compute; reflexivity|GuestProps.ex_driver_tac GuestProps.rq_w|].
  2:{ GuestProps.ex_pop_tac GuestProps.rq_w (@RWrite sector 1 [fill 7]). refine (GuestSpec.asks_write _ GuestProps.rq_w [fill 7] _ _); [reflexivity|].
      apply GuestProps.sectors_by_computation. vm_compute. reflexivity. }
  set (g1 := GuestProps.next g0 _) in S.
  apply (GuestProps.ex_step g1 _ _ _ (GuestModel.GDone 1 0 0 true []) [] [TDone 1 0 5 true []]) in S; [|vm_compute; reflexivity|exact Logic.I|].
  2:{ GuestProps.ex_done_tac 5%N 1 GuestProps.rq_w true (@nil (option sector)). apply GuestSpec.finds_done; [vm_compute; reflexivity|discriminate]. }
  set (g2 := GuestProps.next g1 _) in S.
  apply (GuestProps.ex_step g2 _ _ _ (GuestModel.GCrash GuestProps.ex_mem) [] [TCrash]) in S; [|vm_compute; reflexivity|exact Logic.I|eapply GuestSpec.w_crash; reflexivity].
  set (g3 := GuestProps.next g2 _) in S.
  apply (GuestProps.ex_step g3 _ _ _ (GuestModel.GPop 1 GuestProps.ex_read 10) [GuestSpec.mk_pending 1 4 10 GuestProps.rq_r] [TIssue 10 1 4 (RRead 0 4)]) in S;
    [|vm_compute; reflexivity|GuestProps.ex_driver_tac GuestProps.rq_r|].
  2:{ GuestProps.ex_pop_tac GuestProps.rq_r (@RRead sector 0 4). refine (GuestSpec.asks_read _ GuestProps.rq_r 4%N _ _); reflexivity. }
  set (g4 := GuestProps.next g3 _) in S.
  apply (GuestProps.ex_step g4 _ _ _ (GuestModel.GDone 10 1 2 true old_found) [] [TDone 10 1 4 true old_found]) in S; [|vm_compute; reflexivity|exact Logic.I|].
  2:{ GuestProps.ex_done_tac 4%N 10 GuestProps.rq_r true old_found. unfold old_found. rewrite <- (map_map (sector_at ex_plain_world [4%N]) Some).
      apply GuestSpec.finds_data; [vm_compute; reflexivity|reflexivity|]. apply GuestProps.sectors_by_computation. vm_compute. reflexivity. }
  eexists. refine (eq_ind _ (fun t => GuestSpec.session GuestProps.ex_valid 8 [65%N] 2 512 6 GuestProps.ex_mem _ [] t gone_gtr) S _ _). vm_compute. reflexivity.
Qed.

(** A driver that negotiates neither bit (only VERSION_1, say) may take completed writes for
    durable, and loses them: a device that is not configured for write-through goes on with
    its volatile cache whatever the driver accepted. *)
Theorem C88_refuted_without_flush : exists acked l gs fin,
  negotiated features acked /\
  (forall wb, cache_understood acked wb = WriteThrough) /\
  launch ex_plain_world ex_xts ex_plain [] = Ok l /\
  at_work ex_xts ex_plain_world l gone_tr fin /\
  GuestSpec.session GuestProps.ex_valid 8 [65%N] 2 512 (sector_count (l_bdev l)) GuestProps.ex_mem gs [] gone_tr gone_gtr /\
  ~ reads_see_completed_writes (sector_count (l_bdev l)) gone_gtr.
Proof.
  destruct gone_session as (gs & Ss).
  assert (E : option_map snd (srun 512 1 false false (new_sdev 6 (sector_at ex_plain_world [4%N])) gone_ses) = Some gone_tr) by (vm_compute; reflexivity).
  destruct (srun 512 1 false false (new_sdev 6 (sector_at ex_plain_world [4%N])) gone_ses) as [[s tr]|] eqn:R; cbn [option_map fst snd] in E; [|discriminate E].
  assert (Et := f_equal (fun x => match x with Some y => y | None => [] end) E). cbv beta iota in Et. subst tr.
  exists (2 ^ 32)%N. eexists. exists gs, (fun x => SyncModel.cur_cell (s_cell s x)).
  split. { intros b H. rewrite N.pow2_bits_eqb in H. apply N.eqb_eq in H. subst b. reflexivity. }
  split; [intros wb; reflexivity|]. split; [vm_compute; reflexivity|]. cbn [l_lazy l_bdev sector_count]. split; [|split; [exact Ss|]].
  - unfold at_work. cbn [l_bdev l_lazy].
    apply (serves_sync ex_xts ex_plain_world (mk_opening [4%N] Sync 0 false true false) 6 gone_ses s gone_tr).
    + reflexivity.
    + reflexivity.
    + unfold gone_ses. repeat constructor; cbn; lia.
    + exact R.
  - intros H. specialize (H [] 1 0 5 (RWrite 1 [fill 7]) [] 0 5 [] [TCrash] 10 1 4 0 4 [] 1 4 old_found [] 1 1 (fill 7) eq_refl).
    assert (X : nth_error old_found 1 = Some (Some (fill 7))).
    { apply H; try lia.
      - exists 0. split; reflexivity.
      - intros n q id r v [].
      - intros n q id r v [].
      - intros n q id r v [X|[]]. discriminate X.
      - intros n q id r v [].
      - intros []. }
    vm_compute in X. discriminate X.
Qed.

(** The offset is ignored when the configuration space is read: a front-end that asks for
    the byte [writeback] alone is given the low byte of the capacity instead, and takes a
    device of 256 sectors for a write-through one. *)
Theorem C88_refuted_mode_read_alone : forall ssm scm nq,
  told 256 ssm scm nq false 32 1 = [0%N] /\
  cache_understood features (nth 0 (told 256 ssm scm nq false 32 1) 1%N) = WriteThrough.
Proof. intros ssm scm nq. split; reflexivity. Qed.

Print Assumptions C88_offered.
Print Assumptions C88_protocol_offered.
Print Assumptions C88_mode_told.
Print Assumptions C88_write_through_as_told_partial.
Print Assumptions C88_nonvacuous.
Print Assumptions C88_refuted_without_flush.
Print Assumptions C88_refuted_mode_read_alone.
