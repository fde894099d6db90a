(** C86: a device keeps its contents through any number of runs of its backend.

    A backend is stopped, by a crash of its own or a power failure, and started again on
    the files it left behind.  It comes up, with a device of the same size that holds what
    the crash left of the old one; so what guests and drivers note over all runs is what
    they would note of one disk that loses power now and then. *)
From Coq Require Import List Arith NArith ZArith Bool Lia ZifyBool ZifyNat ZifyN.
Import ListNotations.
From Verif Require Import Base BaseFacts DiskSpec TraceSpec TraceFacts MetadataModel LazyState LazyModel LazySpec CryptModel CryptSpec SetupModel SetupSpec SetupProps
  LayerSpec LayerModel MetaLayerModel SyncModel UringDiskModel UringDiskSpec UringDiskProps CryptOpenModel CryptOpenSpec CryptOpenCheck CryptOpenProps StackModel StackSpec StackProofs StackProps
  RestartSpec RestartFacts RestartProofs.
From Verif Require LayerProps GuestModel GuestSpec GuestProofs GuestProps UblkDiskSpec UblkDiskProofs UblkDiskProps.
Local Open Scope nat_scope.
Ltac Zify.zify_post_hook ::= Z.div_mod_to_equations.

Definition lazy_ready (l : launched) : Prop := forall k h, l_lazy l = Some (k, h) -> well_configured k h.

Lemma contract : forall w (xts : xts_type) c blank l g t,
  source_matches w c -> whole_sectors w -> cipher_ok (cipher_of xts c) -> launch w xts c blank = Ok l -> lazy_ready l ->
  used_by (sector_count (l_bdev l)) g t -> respects (sector_count (l_bdev l)) (configured_contents xts w c l) g.
Proof.
  intros w xts c blank l g t SM W K L WC Us.
  assert (Hc : forall x, x < sector_count (l_bdev l) -> N.of_nat (length (configured_contents xts w c l x)) = 512%N).
  { intros x Hx. rewrite (contents_length w xts c l blank SM W K L WC x Hx). reflexivity. }
  destruct Us as [valid qsize did nslots bufsize m0 gs P S|max depth us P Hm S].
  - exact (LayerProps.C79_backend_keeps_the_contract _ _ _ _ _ _ _ _ _ _ _ _ S Hc).
  - exact (UblkDiskProps.C80_keeps_the_contract _ _ _ _ _ _ _ _ Hm S Hc).
Qed.

Lemma run_is_a_disk : forall w (xts : xts_type) c blank l g fin t,
  source_matches w c -> whole_sectors w -> cipher_ok (cipher_of xts c) -> launch w xts c blank = Ok l -> lazy_ready l ->
  at_work xts w l g fin -> used_by (sector_count (l_bdev l)) g t ->
  exists d, disk_behaviour (sector_count (l_bdev l)) (configured_contents xts w c l) t d /\
    forall x, x < sector_count (l_bdev l) -> cur (d_hist d x) = fin x.
Proof.
  intros w xts c blank l g fin t SM W K L WC A [valid qsize did nslots bufsize m0 gs P S|max depth us P Hm S].
  - eapply C84_guest_sees_the_configured_disk; eauto.
  - eapply C84_driver_sees_the_configured_disk; eauto.
Qed.

Lemma left_source : forall (xts : xts_type) w c l g w', left_by xts w c l g w' ->
  (source_matches w c -> source_matches w' c) /\ (whole_sectors w -> whole_sectors w').
Proof.
  intros xts w c l g w' ((_ & _ & S & _) & _). unfold source_matches, whole_sectors. rewrite S. auto.
Qed.

(** ** One stop, one start *)

(** The backend comes up again on what it left behind, with the same layers over the same
    files.  To a guest or a driver it was a disk, holding the configured contents at first;
    and that disk, at the end, holds the contents of the new one. *)
Theorem C86_comes_up_again : forall w (xts : xts_type) c blank l g t w',
  source_matches w c -> whole_sectors w -> cipher_ok (cipher_of xts c) -> image_apart c ->
  launch w xts c blank = Ok l -> lazy_ready l ->
  left_by xts w c l g w' -> used_by (sector_count (l_bdev l)) g t ->
  exists l' d, launch w' xts c blank = Ok l' /\ l_bdev l' = l_bdev l /\ lazy_ready l' /\
    disk_behaviour (sector_count (l_bdev l)) (configured_contents xts w c l) t d /\
    forall x, x < sector_count (l_bdev l) -> cur (d_hist d x) = Some (configured_contents xts w' c l' x).
Proof.
  intros w xts c blank l g t w' SM W K A L WC Lf Us.
  destruct (comes_up w w' xts c blank l g SM K A L WC Lf (contract _ _ _ _ _ _ _ SM W K L WC Us)) as (l' & fin & L' & Eb & WC' & At & _ & E & _).
  destruct (run_is_a_disk w xts c blank l g fin t SM W K L WC At Us) as (d & D & F).
  exists l', d. split; [exact L'|]. split; [exact Eb|]. split; [exact WC'|]. split; [exact D|]. intros x Hx. now rewrite F, E.
Qed.

(** ** Any number of them *)

(** After any number of runs the backend comes up; all that was noted is the behaviour of
    one disk, and the device now holds what that disk holds. *)
Theorem C86_one_disk_for_life : forall (xts : xts_type) c blank w l ts t w',
  source_matches w c -> whole_sectors w -> cipher_ok (cipher_of xts c) -> image_apart c ->
  launch w xts c blank = Ok l -> lazy_ready l ->
  life xts c blank w ts w' -> joined ts t ->
  exists l' d, launch w' xts c blank = Ok l' /\ l_bdev l' = l_bdev l /\ lazy_ready l' /\
    disk_behaviour (sector_count (l_bdev l)) (configured_contents xts w c l) t d /\
    forall x, x < sector_count (l_bdev l) -> cur (d_hist d x) = Some (configured_contents xts w' c l' x).
Proof.
  intros xts c blank w l ts t w' SM W K A L WC H. revert l t SM W L WC. induction H as [w|w l0 g t0 w1 ts w2 L0 Lf Us St Hl IH]; intros l t SM W L WC J.
  - inversion J. subst. exists l, (new_disk (configured_contents xts w c l)). split; [exact L|]. split; [reflexivity|]. split; [exact WC|].
    split; [exists []; reflexivity|]. reflexivity.
  - rewrite L in L0. apply Ok_inj in L0. subst l0. inversion J as [|t0' ts' r K0 Hn Jr]. subst.
    destruct (C86_comes_up_again w xts c blank l g t0 w1 SM W K A L WC Lf Us) as (l1 & d1 & L1 & E1 & WC1 & D1 & F1).
    destruct (left_source _ _ _ _ _ _ Lf) as (S1 & S2).
    destruct (IH l1 r (S1 SM) (S2 W) L1 WC1 Jr) as (l2 & d2 & L2 & E2 & WC2 & D2 & F2). rewrite E1 in *.
    destruct St as (t1 & ->). destruct (one_after_the_other _ _ _ _ _ _ _ _ D1 F1 D2 Hn) as (d & D & F).
    exists l2, d. split; [exact L2|]. split; [congruence|]. split; [exact WC2|]. split; [exact D|]. intros x Hx. now rewrite F, F2.
Qed.

(** The same with the run that is going on: all that was noted up to now is the behaviour
    of one disk. *)
Theorem C86_up_to_now : forall (xts : xts_type) c blank w l ts w' l' g fin t' t,
  source_matches w c -> whole_sectors w -> cipher_ok (cipher_of xts c) -> image_apart c ->
  launch w xts c blank = Ok l -> lazy_ready l ->
  life xts c blank w ts w' -> launch w' xts c blank = Ok l' ->
  at_work xts w' l' g fin -> used_by (sector_count (l_bdev l')) g t' ->
  joined (ts ++ [t']) t ->
  exists d, disk_behaviour (sector_count (l_bdev l)) (configured_contents xts w c l) t d /\
    forall x, x < sector_count (l_bdev l) -> cur (d_hist d x) = fin x.
Proof.
  intros xts c blank w l ts w' l' g fin t' t SM W K A L WC H. revert l t SM W L WC.
  induction H as [w|w l0 g0 t0 w1 ts w2 L0 Lf Us St Hl IH]; intros l t SM W L WC L' At Us' J.
  - rewrite L in L'. apply Ok_inj in L'. subst l'. inversion J as [|t0 ts r K0 Hn Jr]. subst. inversion Jr. subst. cbn [map]. rewrite app_nil_r.
    exact (run_is_a_disk w xts c blank l g fin t' SM W K L WC At Us').
  - rewrite L in L0. apply Ok_inj in L0. subst l0. inversion J as [|t0' ts' r K0 Hn Jr]. subst.
    destruct (C86_comes_up_again w xts c blank l g0 t0 w1 SM W K A L WC Lf Us) as (l1 & d1 & L1 & E1 & WC1 & D1 & F1).
    destruct (left_source _ _ _ _ _ _ Lf) as (S1 & S2).
    destruct (IH l1 r (S1 SM) (S2 W) L1 WC1 L' At Us' Jr) as (d2 & D2 & F2). rewrite E1 in *.
    destruct St as (t1 & ->). destruct (one_after_the_other _ _ _ _ _ _ _ _ D1 F1 D2 Hn) as (d & D & F).
    exists d. split; [exact D|]. intros x Hx. now rewrite F, F2.
Qed.

(** What that means to the users of the device: over all runs, a read returns the data of
    the latest write, if no run ended since that was issued or it was flushed before. *)
Theorem C86_flushed_writes_survive : forall (xts : xts_type) c blank w l ts w' l' g fin t' t,
  source_matches w c -> whole_sectors w -> cipher_ok (cipher_of xts c) -> image_apart c ->
  launch w xts c blank = Ok l -> lazy_ready l ->
  life xts c blank w ts w' -> launch w' xts c blank = Ok l' ->
  at_work xts w' l' g fin -> used_by (sector_count (l_bdev l')) g t' ->
  joined (ts ++ [t']) t ->
  completions_match t /\ reads_return_written (sector_count (l_bdev l)) (configured_contents xts w c l) t /\
  reads_see_writes (sector_count (l_bdev l)) t.
Proof.
  intros xts c blank w l ts w' l' g fin t' t SM W K A L WC H L' At Us J.
  destruct (C86_up_to_now xts c blank w l ts w' l' g fin t' t SM W K A L WC H L' At Us J) as (d & D & _).
  split; [eapply disk_completions_match; eauto|]. split; [eapply disk_reads_return_written; eauto|eapply disk_reads_see_writes; eauto].
Qed.

(** From init-metadata on: the life of a new device. *)
Theorem C86_life_of_a_new_device : forall w (xts : xts_type) c blank p io umask shift p0 seen ts w' l' g fin t' t,
  ready w c -> source_matches w c -> whole_sectors w -> cipher_ok (cipher_of xts c) -> image_apart c -> c_metadata c = Some p ->
  init_metadata (setup_of xts w c) io umask shift p0 = (seen, Ok tt) ->
  w_file w p = Some (content_of (hd p0 seen)) ->
  source_usable (source_of w c) shift (length (file_of w (c_data c)) / 512) ->
  source_fits (source_of w c) (N.to_nat (2 ^ shift)) (length (file_of w (c_data c)) / 512) ->
  life xts c blank w ts w' -> launch w' xts c blank = Ok l' ->
  at_work xts w' l' g fin -> used_by (sector_count (l_bdev l')) g t' ->
  joined (ts ++ [t']) t ->
  exists contents d, overlaid (setup_of xts w c) (N.to_nat (2 ^ shift)) (sector_count (l_bdev l')) contents /\
    disk_behaviour (sector_count (l_bdev l')) contents t d /\
    forall x, x < sector_count (l_bdev l') -> cur (d_hist d x) = fin x.
Proof.
  intros w xts c blank p io umask shift p0 seen ts w' l' g fin t' t R SM W K A Hp Hi Hf U F H L' At Us J.
  destruct (C84_new_device_comes_up w xts c blank p io umask shift p0 seen R SM K Hp Hi Hf U F) as (l & k & h & L & El & WC & O).
  assert (WCl : lazy_ready l). { intros k' h' E'. rewrite El in E'. injection E' as <- <-. exact WC. }
  assert (Jt : exists t2, joined ts t2).
  { assert (X : forall (t0 : list (titem sector)), exists K, numbered_upto K t0).
    { induction t0 as [|i r (K1 & IH)]; [exists 0; intros ? ? ? ? []|]. destruct i as [n q id rq|n q id ok d|].
      - exists (n + K1). intros n' q' id' r' [E|E]; [injection E as -> -> -> ->; lia|]. apply IH in E. lia.
      - exists K1. intros n' q' id' r' [E|E]; [discriminate|]. exact (IH _ _ _ _ E).
      - exists K1. intros n' q' id' r' [E|E]; [discriminate|]. exact (IH _ _ _ _ E). }
    clear - X. induction ts as [|t ts (t2 & IH)]; [exists []; constructor|]. destruct (X t) as (K & HK). exists (t ++ map (renumber K) t2). now constructor. }
  destruct Jt as (t2 & Jt).
  destruct (C86_one_disk_for_life xts c blank w l ts t2 w' SM W K A L WCl H Jt) as (l2 & _ & L2 & Eb & _). rewrite L' in L2. apply Ok_inj in L2. subst l2.
  destruct (C86_up_to_now xts c blank w l ts w' l' g fin t' t SM W K A L WCl H L' At Us J) as (d & D & E).
  rewrite Eb in *. exists (configured_contents xts w c l), d. auto.
Qed.

(** ** Concrete cases *)

(** A world in which one file has been changed. *)
Definition set_file (w : world) (p : path) (f : list byte) : world :=
  mk_world (fun q => if bytes_eqb q p then Some f else w_file w q) (w_statfs w) (w_source w).

Lemma set_same : forall w p f, w_file (set_file w p f) p = Some f.
Proof. intros w p f. cbn. now rewrite (proj2 (bytes_eqb_spec p p) eq_refl). Qed.
Lemma set_other : forall w p f q, q <> p -> w_file (set_file w p f) q = w_file w q.
Proof. intros w p f q H. cbn. destruct (bytes_eqb q p) eqn:E; [|reflexivity]. apply bytes_eqb_spec in E. contradiction. Qed.
Lemma set_keeps : forall w p f q f0 g, w_file w p = Some g -> length f = length g -> w_file w q = Some f0 ->
  exists f', w_file (set_file w p f) q = Some f' /\ length f' = length f0.
Proof.
  intros w p f q f0 g H L E. cbn. destruct (bytes_eqb q p) eqn:B; [|eauto]. apply bytes_eqb_spec in B. subst q.
  exists f. split; [reflexivity|]. congruence.
Qed.

Lemma nth_tabulated : forall {A} (f : nat -> A) n x d, x < n -> nth x (map f (seq 0 n)) d = f x.
Proof.
  intros A f n x d H. rewrite (nth_indep _ d (f 0)) by (rewrite map_length, seq_length; exact H). rewrite map_nth, seq_nth by exact H. reflexivity.
Qed.

(** The driver's session of C80 on a plain file, twice: it writes 7 to sector 1 and reads
    sectors 0 and 1, and the machine goes down. *)
Definition plain_file : list byte := concat (map fill [0; 7; 2; 3; 4; 5]%N).
Definition plain_world (twice : bool) : world :=
  if twice then set_file (set_file ex_plain_world [4%N] plain_file) [4%N] plain_file
  else set_file ex_plain_world [4%N] plain_file.
Definition plain_before (twice : bool) : world := if twice then plain_world false else ex_plain_world.

Lemma plain_run : forall twice, exists l, launch (plain_before twice) ex_xts ex_plain [] = Ok l /\ lazy_ready l /\
  left_by ex_xts (plain_before twice) ex_plain l UblkDiskProps.ex_tr (plain_world twice) /\
  used_by (sector_count (l_bdev l)) UblkDiskProps.ex_tr UblkDiskProps.ex_ktr.
Proof.
  intros twice. set (o := mk_opening [4%N] Sync 0 false true false). exists (mk_launched (DFile o 6) [] None).
  assert (L : launch (plain_before twice) ex_xts ex_plain [] = Ok (mk_launched (DFile o 6) [] None)) by (destruct twice; vm_compute; reflexivity).
  split; [exact L|]. split; [intros k h E; discriminate E|]. split.
  - assert (E : option_map (fun x => (snd x, map (fun y => SyncModel.cur_cell (s_cell (fst x) y)) (seq 0 6)))
       (srun 512 1 false false (new_sdev 6 (sector_at (plain_before twice) [4%N])) ex_ses) =
       Some (UblkDiskProps.ex_tr, map (fun y => Some (data_sector ex_xts (plain_world twice) ex_plain y)) (seq 0 6))) by (destruct twice; vm_compute; reflexivity).
    destruct (srun 512 1 false false (new_sdev 6 (sector_at (plain_before twice) [4%N])) ex_ses) as [[s tr]|] eqn:R; cbn [option_map fst snd] in E; [|discriminate E].
    apply (f_equal (fun x => match x with Some y => y | None => ([], []) end)) in E. cbv beta iota in E. apply pair_equal_spec in E as (-> & E).
    split.
    + assert (F : length plain_file = length (file_of (plain_before twice) [4%N])) by (destruct twice; vm_compute; reflexivity).
      destruct twice; (split; [intros p H1 _; exact (set_other _ _ _ _ H1)|]); (split; [reflexivity|]); (split; [reflexivity|]); intros p f Hf;
        (eapply set_keeps; [|exact F|exact Hf]); vm_compute; reflexivity.
    + cbn [l_bdev l_lazy]. exists (fun x => SyncModel.cur_cell (s_cell s x)). split; [eexists [_; _; _; _]; reflexivity|]. split.
      * apply (serves_sync ex_xts (plain_before twice) o 6 ex_ses s UblkDiskProps.ex_tr); [reflexivity|reflexivity| |exact R].
        unfold ex_ses. repeat constructor; cbn; lia.
      * intros x Hx. assert (X : length (file_of (plain_world twice) [4%N]) / 512 = 6) by (destruct twice; vm_compute; reflexivity).
        change (c_data ex_plain) with [4%N] in Hx. rewrite X in Hx.
        assert (Y := f_equal (fun l => nth x l None) E). cbv beta in Y. rewrite !nth_tabulated in Y by exact Hx. exact Y.
  - destruct (proj1 UblkDiskProps.C80_nonvacuous) as (us & S). eapply by_driver; [|exact S]. reflexivity.
Qed.

Example C86_plain_nonvacuous :
  source_matches ex_plain_world ex_plain /\ whole_sectors ex_plain_world /\ cipher_ok (cipher_of ex_xts ex_plain) /\ image_apart ex_plain /\
  (exists l, launch ex_plain_world ex_xts ex_plain [] = Ok l /\ lazy_ready l) /\
  life ex_xts ex_plain [] ex_plain_world [UblkDiskProps.ex_ktr; UblkDiskProps.ex_ktr] (plain_world true) /\
  joined [UblkDiskProps.ex_ktr; UblkDiskProps.ex_ktr] (UblkDiskProps.ex_ktr ++ map (renumber 4) (UblkDiskProps.ex_ktr ++ [])).
Proof.
  split; [exact I|]. split; [exact I|]. split; [exact I|]. split; [intros p a r E; discriminate E|].
  destruct (plain_run false) as (l1 & L1 & R1 & F1 & U1). destruct (plain_run true) as (l2 & L2 & R2 & F2 & U2).
  assert (St : stopped UblkDiskProps.ex_ktr) by (eexists [_; _; _; _; _; _]; reflexivity).
  split; [exists l1; split; [exact L1|exact R1]|]. split.
  - eapply life_run; [exact L1|exact F1|exact U1|exact St|]. eapply life_run; [exact L2|exact F2|exact U2|exact St|]. constructor.
  - assert (N : numbered_upto 4 UblkDiskProps.ex_ktr).
    { intros n q id r H. cbn [UblkDiskProps.ex_ktr In] in H. repeat (destruct H as [H|H]; [try discriminate H; injection H as <- _ _ _; lia|]). destruct H. }
    refine (j_cons _ _ (UblkDiskProps.ex_ktr ++ []) 4 N _). exact (j_cons _ [] [] 4 N j_nil).
Qed.

(** The guest's session of C78 on the encrypted lazy device of C84, up to the power failure:
    it writes 7 to sector 1, of a stripe that has to be fetched first, and flushes. *)
Definition lazy_tr : list (titem sector) := firstn 5 GuestProps.ex_tr.
Definition lazy_gtr : list (titem sector) := firstn 5 GuestProps.ex_gtr.
Definition lazy_open : list (oevent sector) := firstn 21 LayerProps.ex_open.
Definition lazy_headers : list byte := [FLAG_HAS_SOURCE + FLAG_FETCHED + FLAG_WRITTEN; FLAG_HAS_SOURCE; 0]%N.
Definition ex_cipher : cipher := Some (ex_xts (firstn 32 ex_key) (skipn 32 ex_key)).
Definition lazy_meta : list byte :=
  match save_image ex_cipher (MetadataSpec.current_metadata 1 lazy_headers) 2 with Ok b => b | _ => [] end.
Definition lazy_data : list byte :=
  concat (map (fun x => LayerProps.ex_enc x (if x =? 0 then fill 100 else if x =? 1 then fill 7 else GuestProps.ex_base x)) (seq 0 6)).
Definition lazy_world : world := set_file (set_file ex_world p_data lazy_data) p_meta lazy_meta.

(** The run of C79, with the metadata device outside. *)
Definition outside {V} (es : list (oevent V)) : list (pevent V) :=
  flat_map (fun e => match e with
    | OOwn (EMApply _) => []
    | OOwn (EWMetaDone n ok) => [PMeta n ok]
    | e => [PStep e]
    end) es.
Definition lazy_steps : list (pevent sector) := outside lazy_open.

Lemma outside_steps : forall {V} (es : list (oevent V)) e, In e (other_steps (outside es)) -> In e es.
Proof.
  intros V es e H. unfold other_steps, outside in H. apply in_flat_map in H as (x & H1 & H2). apply in_flat_map in H1 as (e0 & H0 & H1).
  destruct x as [x|]; [|destruct H2]. destruct H2 as [->|[]].
  assert (X : e0 = e) by (destruct e0 as [[]| | |]; cbn in H1; (destruct H1 as [H1|[]] || destruct H1); injection H1 as <- || discriminate H1; reflexivity).
  now subst.
Qed.

(** The sector of the stripe headers: with stripe 0 written to, then also fetched. *)
Definition lazy_sector (hs : list byte) : sector := match flusher_sector hs 0 with Ok l => l | _ => [] end.
Definition lazy_between : list byte := [FLAG_HAS_SOURCE + FLAG_WRITTEN; FLAG_HAS_SOURCE; 0]%N.
Definition meta_tr : list (titem sector) :=
  [ TIssue 5 0 0 (RWrite 1 [lazy_sector lazy_between]); TDone 5 0 0 true []; TIssue 6 0 0 RFlush; TDone 6 0 0 true [];
    TIssue 7 0 0 (RWrite 1 [lazy_sector lazy_headers]); TDone 7 0 0 true []; TIssue 8 0 0 RFlush; TDone 8 0 0 true [] ].
Definition meta_enc : nat -> sector -> sector := match ex_cipher with Some (e, _) => on_sector e | None => fun _ v => v end.
Definition meta_kes : list (kevent sector) :=
  [ KFill 0 [lazy_sector lazy_between]; KWrite 5 0 0 1 1 0; KDone 5 true []; KFlush 6 0 0; KDone 6 true [];
    KFill 0 [lazy_sector lazy_headers]; KWrite 7 0 0 1 1 0; KDone 7 true []; KFlush 8 0 0; KDone 8 true []; KCrash ].
Definition meta_below : list (titem sector) :=
  [ TIssue 5 0 0 (RWrite 1 [meta_enc 1 (lazy_sector lazy_between)]); TDone 5 0 0 true []; TIssue 6 0 0 RFlush; TDone 6 0 0 true [];
    TIssue 7 0 0 (RWrite 1 [meta_enc 1 (lazy_sector lazy_headers)]); TDone 7 0 0 true []; TIssue 8 0 0 RFlush; TDone 8 0 0 true []; TCrash ].
Definition meta_fes : list (fevent sector) :=
  [ FFill 0 [meta_enc 1 (lazy_sector lazy_between)]; FWrite 5 0 0 1 1 0; FSubmit 0 1; FMove 5 0; FComplete 5 Full; FPoll 0;
    FFlush 6 0 0; FSubmit 0 1; FComplete 6 Full; FPoll 0;
    FFill 0 [meta_enc 1 (lazy_sector lazy_headers)]; FWrite 7 0 0 1 1 0; FSubmit 0 1; FMove 7 0; FComplete 7 Full; FPoll 0;
    FFlush 8 0 0; FSubmit 0 1; FComplete 8 Full; FPoll 0;
    FCrash (fun _ => 0) ].

Lemma lazy_ran : exists s, prun ex_c (oinit ex_c ex_hd) lazy_steps = Some (s, firstn 4 lazy_tr, firstn 8 LayerProps.ex_between, meta_tr).
Proof.
  assert (E1 : option_map (fun x => (snd (fst (fst x)), snd (fst x), snd x)) (prun ex_c (oinit ex_c ex_hd) lazy_steps)
      = Some (firstn 4 lazy_tr, firstn 8 LayerProps.ex_between, meta_tr)) by (vm_compute; reflexivity).
  destruct (prun ex_c (oinit ex_c ex_hd) lazy_steps) as [[[[s g] b] m]|]; cbn [option_map fst snd] in E1; [|discriminate E1].
  apply (f_equal (fun x => match x with Some y => y | None => ([], [], []) end)) in E1. cbv beta iota in E1.
  apply pair_equal_spec in E1 as (E1 & E3). apply pair_equal_spec in E1 as (E1 & E2). subst g b m. exists s. reflexivity.
Qed.

Lemma bytes_by_computation : forall l, forallb (fun b => b <? 256)%N l = true -> bytes_ok l.
Proof. intros l H. apply Forall_forall. intros x Hx. rewrite forallb_forall in H. apply N.ltb_lt. exact (H x Hx). Qed.

(** Sectors 0 and 1 are now in the data file, 2 still comes from the image. *)
Example C86_lazy_nonvacuous :
  let c := ex_config true ex_key in
  source_matches ex_world c /\ whole_sectors ex_world /\ cipher_ok (cipher_of ex_xts c) /\ image_apart c /\
  launch ex_world ex_xts c (fill 0) = Ok ex_l /\ lazy_ready ex_l /\
  left_by ex_xts ex_world c ex_l lazy_tr lazy_world /\ used_by (sector_count (l_bdev ex_l)) lazy_tr lazy_gtr /\
  life ex_xts c (fill 0) ex_world [lazy_gtr] lazy_world /\
  match launch lazy_world ex_xts c (fill 0) with
  | Ok l => map (configured_contents ex_xts lazy_world c l) (seq 0 6) = map fill [100; 7; 102; 103; 4; 5]%N
  | _ => False
  end.
Proof.
  cbv zeta. split; [exact I|]. split; [exact I|]. split; [apply ex_xts_ok|].
  split. { intros p a r E. cbn [ex_config c_source] in E. injection E as <- _ _. split; discriminate. }
  split; [exact ex_launched|].
  assert (WC : lazy_ready ex_l). { intros k h E. rewrite ex_lazy_parts in E. apply some_pair in E as (E1 & E2). rewrite <- E1, <- E2. exact ex_configured. }
  split; [exact WC|].
  assert (Lf : left_by ex_xts ex_world (ex_config true ex_key) ex_l lazy_tr lazy_world).
  { split.
    { split; [intros p H1 H2|].
      { unfold lazy_world. rewrite set_other by (intros ->; now apply H2). apply set_other. exact H1. }
      split; [reflexivity|]. split; [reflexivity|]. intros p f Hf.
      destruct (set_keeps ex_world p_data lazy_data p f (concat (map LayerProps.ex_stored (seq 0 6))) eq_refl ltac:(vm_compute; reflexivity) Hf) as (f1 & H1 & H2).
      assert (X : exists g, w_file (set_file ex_world p_data lazy_data) p_meta = Some g /\ length lazy_meta = length g).
      { eexists. split; [vm_compute; reflexivity|vm_compute; reflexivity]. }
      destruct X as (g & X1 & X2). destruct (set_keeps _ p_meta lazy_meta p f1 g X1 X2 H1) as (f2 & H3 & H4). exists f2. split; [exact H3|]. congruence. }
    assert (Db : match l_bdev ex_l with
                 | DLazy (DCrypt k1 k2 (DFile o n)) _ _ => Some (k1, k2, o_path o, o_engine o, o_readonly o, o_sync o, o_entries o, n)
                 | _ => None end = Some (firstn 32 ex_key, skipn 32 ex_key, p_data, IoUring, false, false, 4%N, 6)) by (vm_compute; reflexivity).
    destruct (l_bdev ex_l) as [|?|[|k1 k2 [o n| |]|] i tw] eqn:B; try discriminate Db. injection Db as Ek1 Ek2 Ep Ee Er Es Eq En. subst n.
    rewrite ex_lazy_parts. destruct lazy_ran as (so & R1).
    set (en := on_sector (fst (ex_xts k1 k2))). set (de := on_sector (snd (ex_xts k1 k2))).
    assert (E2 : option_map (fun x => (snd (fst x), snd x)) (krun en de new_kdev (firstn 11 ex_kes)) = Some (firstn 9 LayerProps.ex_between, firstn 9 ex_below))
      by (unfold en, de; rewrite Ek1, Ek2; vm_compute; reflexivity).
    destruct (krun en de new_kdev (firstn 11 ex_kes)) as [[[sk g] b]|] eqn:R2; cbn [option_map fst snd] in E2; [|discriminate E2].
    assert (Eg := f_equal (fun x => match x with Some (y, _) => y | None => [] end) E2). assert (Eb := f_equal (fun x => match x with Some (_, y) => y | None => [] end) E2).
    cbv beta iota in Eg, Eb. clear E2. subst g b.
    assert (E3 : option_map (fun x => (snd x, map (fun y => cur_cell (f_cell (fst x) y)) (seq 0 6)))
        (frun 512 1 false false 4 (new_fdev 6 (sector_at ex_world p_data)) (firstn 22 ex_fes)) =
        Some (firstn 9 ex_below, map (fun y => Some (sector_at lazy_world p_data y)) (seq 0 6))) by (vm_compute; reflexivity).
    destruct (frun 512 1 false false 4 (new_fdev 6 (sector_at ex_world p_data)) (firstn 22 ex_fes)) as [[f b]|] eqn:R3; cbn [option_map fst snd] in E3; [|discriminate E3].
    assert (Eb := f_equal (fun x => match x with Some (y, _) => y | None => [] end) E3). assert (F1 := f_equal (fun x => match x with Some (_, y) => y | None => [] end) E3).
    cbv beta iota in Eb, F1. clear E3. subst b.
    assert (Bm : exists om, build_block_device ex_world p_meta (ex_config true ex_key) false = Ok (DCrypt k1 k2 (DFile om 2)) /\
      o_path om = p_meta /\ o_engine om = IoUring /\ o_readonly om = false /\ o_sync om = false /\ o_entries om = 4%N).
    { eexists. split; [rewrite Ek1, Ek2; vm_compute; reflexivity|]. repeat split. }
    destruct Bm as (om & Bm & Mp & Me & Mr & Ms & Mq).
    assert (E4 : option_map (fun x => (snd (fst x), snd x)) (krun en de new_kdev meta_kes) = Some (meta_tr ++ [TCrash], meta_below))
      by (unfold en, de; rewrite Ek1, Ek2; vm_compute; reflexivity).
    destruct (krun en de new_kdev meta_kes) as [[[sm g] b]|] eqn:R4; cbn [option_map fst snd] in E4; [|discriminate E4].
    assert (Eg := f_equal (fun x => match x with Some (y, _) => y | None => [] end) E4). assert (Eb := f_equal (fun x => match x with Some (_, y) => y | None => [] end) E4).
    cbv beta iota in Eg, Eb. clear E4. subst g b.
    assert (E5 : option_map (fun x => (snd x, map (fun y => cur_cell (f_cell (fst x) y)) (seq 0 2)))
        (frun 512 1 false false 4 (new_fdev 2 (sector_at ex_world p_meta)) meta_fes) =
        Some (meta_below, map (fun y => Some (sector_at lazy_world p_meta y)) (seq 0 2))) by (vm_compute; reflexivity).
    destruct (frun 512 1 false false 4 (new_fdev 2 (sector_at ex_world p_meta)) meta_fes) as [[fm b]|] eqn:R5; cbn [option_map fst snd] in E5; [|discriminate E5].
    assert (Eb := f_equal (fun x => match x with Some (y, _) => y | None => [] end) E5). assert (F2 := f_equal (fun x => match x with Some (_, y) => y | None => [] end) E5).
    cbv beta iota in Eb, F2. clear E5. subst b.
    exists p_meta, (DCrypt k1 k2 (DFile om 2)), lazy_steps, so, (firstn 4 lazy_tr), (firstn 8 LayerProps.ex_between), meta_tr,
      (fun x => option_map (de x) (cur_cell (f_cell f x))), (fun x => option_map (de x) (cur_cell (f_cell fm x))).
    split; [reflexivity|]. split; [exact Bm|]. split.
    { eexists _, _, _. split; [reflexivity|]. split; [vm_compute; reflexivity|]. split; [vm_compute; reflexivity|]. apply bytes_by_computation. vm_compute. reflexivity. }
    split.
    { intros q id r H. apply (ex_fit q id r). rewrite <- (firstn_skipn 21 LayerProps.ex_open). apply in_or_app. left.
      exact (outside_steps lazy_open _ H). }
    split; [exact R1|]. split; [reflexivity|]. split; [|split; [|split]].
    - refine (serves_crypt ex_xts ex_world k1 k2 (DFile o 6) (firstn 11 ex_kes) sk _ (firstn 9 ex_below) (fun x => cur_cell (f_cell f x)) R2 _ _).
      + apply (all_buffers_sound 14); [intros n _; reflexivity|rewrite Ek1, Ek2; vm_compute; reflexivity].
      + refine (serves_uring ex_xts ex_world o 6 (firstn 22 ex_fes) f (firstn 9 ex_below) Ee _ _ _ _); rewrite ?Er, ?Es, ?Eq, ?Ep; try exact R3.
        * reflexivity.
        * apply (calls_sound 14); [intros n _; reflexivity|vm_compute; reflexivity].
        * intros n k H. cbn [ex_fes firstn In] in H. repeat (destruct H as [H|H]; [discriminate H|]). exact H.
    - intros x Hx. assert (X : length (file_of lazy_world p_data) / 512 = 6) by (vm_compute; reflexivity).
      change (c_data (ex_config true ex_key)) with p_data in Hx. rewrite X in Hx.
      assert (Y := f_equal (fun l => nth x l None) F1). cbv beta in Y. rewrite !nth_tabulated in Y by exact Hx. rewrite Y.
      unfold data_sector, cipher_of, keys. cbn [ex_config c_key c_secrets c_data option_map].
      unfold de. rewrite Ek1, Ek2. reflexivity.
    - refine (serves_crypt ex_xts ex_world k1 k2 (DFile om 2) meta_kes sm _ meta_below (fun x => cur_cell (f_cell fm x)) R4 _ _).
      + apply (all_buffers_sound 14); [intros n _; reflexivity|rewrite Ek1, Ek2; vm_compute; reflexivity].
      + refine (serves_uring ex_xts ex_world om 2 meta_fes fm meta_below Me _ _ _ _); rewrite ?Mr, ?Ms, ?Mq, ?Mp; try exact R5.
        * reflexivity.
        * apply (calls_sound 14); [intros n _; reflexivity|vm_compute; reflexivity].
        * intros n k H. cbn [meta_fes In] in H. repeat (destruct H as [H|H]; [discriminate H|]). exact H.
    - assert (M : exists buf, metadata_text ex_xts lazy_world (ex_config true ex_key) buf /\ length buf = 1024 /\
        map (fun y => option_map (de y) (Some (sector_at lazy_world p_meta y))) (seq 0 2) = map (fun x => Some (firstn 512 (skipn (512 * x) buf))) (seq 0 2)).
      { eexists. split; [|split].
        - eexists _, _. split; [reflexivity|]. split; [vm_compute; reflexivity|]. split; [vm_compute; reflexivity|]. apply bytes_by_computation. vm_compute. reflexivity.
        - vm_compute. reflexivity.
        - unfold de. rewrite Ek1, Ek2. vm_compute. reflexivity. }
      destruct M as (buf & M1 & M2 & M3). exists buf. split; [exact M1|]. rewrite M2. change (1024 / 512) with 2. intros x Hx.
      assert (Y := f_equal (fun l => nth x l None) M3). cbv beta in Y. rewrite !nth_tabulated in Y by exact Hx. rewrite <- Y.
      assert (Z := f_equal (fun l => nth x l None) F2). cbv beta in Z. rewrite !nth_tabulated in Z by exact Hx. now rewrite Z. }
  split; [exact Lf|].
  assert (Us : used_by (sector_count (l_bdev ex_l)) lazy_tr lazy_gtr).
  { assert (X : sector_count (l_bdev ex_l) = 6) by (vm_compute; reflexivity). rewrite X.
    destruct GuestProps.C78_up_to_the_failure as (gs & G). exact (by_guest 6 _ _ _ _ _ _ _ _ _ _ G). }
  split; [exact Us|]. split.
  - eapply life_run; [exact ex_launched|exact Lf|exact Us| |constructor]. eexists [_; _; _; _]. reflexivity.
  - vm_compute. reflexivity.
Qed.

Print Assumptions C86_comes_up_again.
Print Assumptions C86_one_disk_for_life.
Print Assumptions C86_up_to_now.
Print Assumptions C86_flushed_writes_survive.
Print Assumptions C86_life_of_a_new_device.
