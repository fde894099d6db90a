(** C91: an archive of a stopped device holds what the device held, and a device made from
    the archive presents it.

    The backend of A has stopped, after any number of runs and crashes; the archive command
    is run on its files until it reports success.  B is a new device with the archive as its
    source.  What the users of B see over its life is a disk that began with what the users
    of A would have found on theirs. *)
From Coq Require Import List Arith NArith ZArith Bool Lia ZifyBool ZifyNat ZifyN.
Import ListNotations.
From Verif Require Import LayerModel SyncModel.
From Verif Require Import Base BaseFacts DiskSpec MetadataModel MetadataSpec LazyState LazyModel LazySpec CryptModel CryptSpec SetupModel SetupSpec
  StackModel StackSpec StackProofs StackProps KeyModel ArchiveModel ArchiverModel ArchiveSpec OfflineModel RestartSpec RestartFacts RestartProofs RestartProps CloneModel CloneSpec CloneProofs CloneProps
  BackupModel BackupSpec BackupProofs.
From Verif Require ArchiveProps ArchiveToy OfflineProps MoveProps SetupProps SetupProofs.
Local Open Scope nat_scope.

Lemma read_only_too : forall w p c d, build_block_device w p c false = Ok d -> exists d', build_block_device w p c true = Ok d'.
Proof.
  intros w p c d H. unfold build_block_device in *. apply bind_ok in H as (d0 & H & K).
  assert (X : exists d1, create_io_engine_device w (c_engine c) p (c_queue c) true true (c_through c) = Ok d1).
  { unfold create_io_engine_device in *. destruct (c_engine c); (destruct (w_file w p); [|try destruct (negb _) in H; discriminate H]); apply bind_ok in H as (n & -> & H);
      apply Ok_inj in H; subst d0; cbn [bindr]; eauto. }
  destruct X as (d1 & ->). cbn [bindr]. destruct (c_key c); [|eauto]. destruct (c_secrets c _); [|discriminate K]. apply bind_ok in K as (k & -> & K). cbn [bindr].
  unfold crypt_device in *. destruct k as (k1 & k2). cbn [fst snd] in *. apply bind_ok in K as (x1 & -> & K). apply bind_ok in K as (x2 & -> & K). cbn [bindr]. eauto.
Qed.

(** The archive command starts on the files a backend of the same configuration comes up on. *)
Theorem C91_archive_starts : forall w (xts : xts_type) c blank l o,
  source_matches w c -> launch w xts c blank = Ok l -> c_metadata c <> None ->
  exists a, archive_of w xts c o = Ok a.
Proof.
  intros w xts c blank l o SM L Hp. destruct (c_metadata c) as [p|] eqn:Ep; [clear Hp|congruence].
  unfold launch in L. apply bind_ok in L as ((d & k) & B & L). pose proof B as B0. apply (build_ok w xts) in B as (data & D & B).
  rewrite Ep in B. destruct B as (meta & m & image & M & Lm & -> & I & ->). cbn [fst snd] in L.
  apply bind_ok in L as (r & R & L). unfold build_bgworker in R. apply bind_ok in R as (s & Es & R). cbn [b_ssc b_fetched] in Es.
  unfold build in B0. destruct (negb _) in B0; [discriminate|]. apply bind_ok in B0 as (disk0 & D0 & B0). rewrite Ep in B0. apply bind_ok in B0 as (meta0 & M0 & _).
  destruct (read_only_too _ _ _ _ D0) as (disk1 & D1). destruct (read_only_too _ _ _ _ M0) as (meta1 & M1).
  unfold archive_of. rewrite Ep, M1. cbn [bindr]. apply (block_ok w xts) in M1. rewrite (device_load w xts _ _ _ _ M1), <- (device_load w xts _ _ _ _ M), Lm. cbn [bindr].
  rewrite D1. cbn [bindr]. rewrite Es. cbn [bindr]. eauto.
Qed.

(** A finished archive can be opened, and gives for every stripe what the device holds.

    What is missing ("_partial"): a stripe that is not marked as written and has no source
    is taken to be zeros, and a stripe marked as written is taken from the disk.  Neither is
    always so: see
    [C69_refuted_untracked] and [C69_refuted_interrupted] (OfflineProps.v).
    The first is if the device tracks writes and was zeros there to begin with. *)
Theorem C91_archive_has_the_device_partial : forall (xts : xts_type) blank c w l ts t w' l' o a P s,
  source_matches w c -> whole_sectors w -> cipher_ok (cipher_of xts c) -> image_apart c ->
  launch w xts c blank = Ok l -> lazy_ready l -> in_whole_stripes l -> (N.of_nat (sector_count (l_bdev l)) < 2 ^ 56)%N ->
  life xts c blank w ts w' -> joined ts t -> launch w' xts c blank = Ok l' ->
  (c_track c = true /\ zeros_where_unused xts w c l \/ zeros_where_unused xts w' c l') -> nothing_half_written l' ->
  archive_of w' xts c o = Ok a -> lawful P -> OfflineProps.options_ok o -> no_collision P a ->
  archiving P a s -> a_phase s = PDone ->
  let n := N.to_nat (ac_ssc a) in
  exists src d contents, open_archive P (a_store s) (ao_kek o) = Ok src /\ s_ssc src = ac_ssc a /\
    disk_behaviour (sector_count (l_bdev l)) (configured_contents xts w c l) t d /\
    (forall x, x < sector_count (l_bdev l) -> cur (d_hist d x) = Some (contents x) /\ length (contents x) = 512) /\
    0 < n /\ sector_count (l_bdev l) = ac_count a * n /\
    forall st, st < ac_count a \/ has_stripe src st = true ->
      st < ac_count a /\ fetch_stripe P (a_store s) src st (n * 512) = Ok (stripe_at contents n st) /\
      (has_stripe src st = false -> stripe_at contents n st = repeat 0%N (n * 512)).
Proof.
  intros xts blank c w l ts t w' l' o a P s SM W K A L WC Wh B56 Hl J L' Z Hw Ea La Oo NC Ar Ph n.
  destruct (C86_one_disk_for_life xts c blank w l ts t w' SM W K A L WC Hl J) as (l2 & d & L2 & Eb & WC2 & D & F).
  rewrite L' in L2. apply Ok_inj in L2. subst l2.
  destruct (unused_for_life xts c blank w l ts w' l' SM W K A L WC Wh Hl L') as (Wh' & Z').
  assert (S' : source_matches w' c /\ whole_sectors w').
  { clear - Hl SM W. induction Hl as [w|w l0 g t0 w1 ts w2 L0 Lf Us St Hl IH]; [auto|]. destruct (left_source _ _ _ _ _ _ Lf) as (S1 & S2). auto. }
  destruct S' as (SM' & W').
  assert (Zf : zeros_where_unused xts w' c l') by (destruct Z as [(T & Z)|Z]; auto).
  rewrite <- Eb in B56.
  destruct (archive_contents w' xts c blank l' o a P s SM' W' K L' WC2 Wh' Zf Hw Ea B56 La Oo NC Ar Ph) as (N0 & Sz & src & Eo & Es & E).
  exists src, d, (configured_contents xts w' c l'). split; [exact Eo|]. split; [exact Es|]. split; [exact D|].
  split; [intros x Hx; split; [exact (F x Hx)|]; apply (contents_length w' xts c l' blank SM' W' K L' WC2); now rewrite Eb|].
  split; [exact N0|]. split; [rewrite <- Eb; exact Sz|exact E].
Qed.

(** So what the archive gives can be had sector by sector, as the next theorem assumes of B's
    source. *)
Theorem C91_archive_can_be_a_source_partial : forall (xts : xts_type) blank c w l ts t w' l' o a P s,
  source_matches w c -> whole_sectors w -> cipher_ok (cipher_of xts c) -> image_apart c ->
  launch w xts c blank = Ok l -> lazy_ready l -> in_whole_stripes l -> (N.of_nat (sector_count (l_bdev l)) < 2 ^ 56)%N ->
  life xts c blank w ts w' -> joined ts t -> launch w' xts c blank = Ok l' ->
  (c_track c = true /\ zeros_where_unused xts w c l \/ zeros_where_unused xts w' c l') -> nothing_half_written l' ->
  archive_of w' xts c o = Ok a -> lawful P -> OfflineProps.options_ok o -> no_collision P a ->
  archiving P a s -> a_phase s = PDone ->
  exists src data, open_archive P (a_store s) (ao_kek o) = Ok src /\
    whole_sectors (mk_world (w_file w') (w_statfs w') (SrcArchive src data)) /\ gives P (a_store s) src (N.to_nat (ac_ssc a)) data.
Proof.
  intros xts blank c w l ts t w' l' o a P s SM W K A L WC Wh B56 Hl J L' Z Hw Ea La Oo NC Ar Ph.
  destruct (C91_archive_has_the_device_partial xts blank c w l ts t w' l' o a P s SM W K A L WC Wh B56 Hl J L' Z Hw Ea La Oo NC Ar Ph)
    as (src & d & cont & Eo & _ & _ & F & N0 & Sz & H).
  exists src, (fun x => if x <? sector_count (l_bdev l) then cont x else repeat 0%N 512). split; [exact Eo|]. split.
  - intros x. destruct (Nat.ltb_spec x (sector_count (l_bdev l))) as [Hx|_]; [exact (proj2 (F x Hx))|apply repeat_length].
  - intros st bytes Hs Hf. destruct (H st (or_intror Hs)) as (Hst & E & _). rewrite E in Hf. apply Ok_inj in Hf. rewrite <- Hf.
    unfold stripe_at. apply map_concat_ext. intros x Hx. apply in_seq in Hx. destruct (Nat.ltb_spec x (sector_count (l_bdev l))) as [_|Hn]; [reflexivity|].
    exfalso. rewrite Sz in Hn. revert Hx Hst Hn. generalize (N.to_nat (ac_ssc a)). generalize (ac_count a). clear. intros. nia.
Qed.

(** The device made from the archive. *)
Theorem C91_restored_is_the_disk_partial : forall (xts : xts_type) blank
    cA wA lA tsA tA wA' lA' o ar P s src
    cB wB p io umask shift p0 seen data auto tsB wB' lB g fin t' tB,
  (* A, its life, and an archive of what it left behind *)
  source_matches wA cA -> whole_sectors wA -> cipher_ok (cipher_of xts cA) -> image_apart cA ->
  launch wA xts cA blank = Ok lA -> lazy_ready lA -> in_whole_stripes lA -> (N.of_nat (sector_count (l_bdev lA)) < 2 ^ 56)%N ->
  life xts cA blank wA tsA wA' -> joined tsA tA -> launch wA' xts cA blank = Ok lA' ->
  (c_track cA = true /\ zeros_where_unused xts wA cA lA \/ zeros_where_unused xts wA' cA lA') -> nothing_half_written lA' ->
  archive_of wA' xts cA o = Ok ar -> lawful P -> OfflineProps.options_ok o -> no_collision P ar ->
  archiving P ar s -> a_phase s = PDone -> open_archive P (a_store s) (ao_kek o) = Ok src ->
  (* B, made with stripes of the same size *)
  ready wB cB -> whole_sectors wB -> cipher_ok (cipher_of xts cB) -> c_metadata cB = Some p ->
  c_source cB = Some (CArchive auto) -> w_source wB = SrcArchive src data -> gives P (a_store s) src (N.to_nat (ac_ssc ar)) data ->
  (2 ^ shift = ac_ssc ar)%N ->
  init_metadata (setup_of xts wB cB) io umask shift p0 = (seen, Ok tt) ->
  w_file wB p = Some (content_of (hd p0 seen)) ->
  let sizeA := sector_count (l_bdev lA) in
  let sizeB := length (file_of wB (c_data cB)) / 512 in
  sizeA <= sizeB ->
  (forall x, x < sizeA -> data_sector xts wB cB x = repeat 0%N 512) ->
  (* its life *)
  life xts cB blank wB tsB wB' -> launch wB' xts cB blank = Ok lB ->
  at_work xts wB' lB g fin -> used_by (sector_count (l_bdev lB)) g t' -> joined (tsB ++ [t']) tB ->
  exists dA contents dB,
    disk_behaviour sizeA (configured_contents xts wA cA lA) tA dA /\
    (forall x, x < sizeA -> cur (d_hist dA x) = Some (contents x)) /\
    disk_behaviour (sector_count (l_bdev lB)) contents tB dB /\
    (forall x, x < sector_count (l_bdev lB) -> cur (d_hist dB x) = fin x).
Proof.
  intros xts blank cA wA lA tsA tA wA' lA' o ar P s src cB wB p io umask shift p0 seen data auto tsB wB' lB g fin t' tB
    SM W K A L WC Wh B56 Hl J L' Z Hhw Ea La Oo NC Ar Ph Eo R W2 K2 Hp Hs Hw De Hsh Hi Hf sizeA sizeB Le Zb HlB LB At Us JB.
  destruct (C91_archive_has_the_device_partial xts blank cA wA lA tsA tA wA' lA' o ar P s SM W K A L WC Wh B56 Hl J L' Z Hhw Ea La Oo NC Ar Ph)
    as (src' & dA & cont & Eo' & Es & DA & FA & N0 & E2 & E3).
  rewrite Eo in Eo'. apply Ok_inj in Eo'. subst src'.
  set (n := N.to_nat (ac_ssc ar)) in *. fold sizeA in E2, FA, DA. clear B56.
  assert (SMB : source_matches wB cB) by (unfold source_matches; rewrite Hs, Hw; eauto).
  assert (SoB : source_of wB cB = SrcArchive src data) by (unfold source_of; now rewrite Hs, Hw).
  assert (Ab : image_apart cB) by (intros p' a' r' E; congruence).
  assert (En : N.to_nat (2 ^ shift) = n) by (unfold n; now rewrite Hsh).
  assert (U : source_usable (source_of wB cB) shift (length (file_of wB (c_data cB)) / 512)).
  { rewrite SoB. cbn [source_usable]. now rewrite Es, Hsh. }
  assert (Fi : source_fits (source_of wB cB) (N.to_nat (2 ^ shift)) (length (file_of wB (c_data cB)) / 512)).
  { rewrite SoB, En. fold sizeB. cbn [source_fits]. intros st Hst. cbn [source_holds] in Hst. apply SetupProofs.has_stripe_spec in Hst. destruct (E3 st (or_intror Hst)) as (X & _).
    clearbody n sizeA sizeB. clear - X E2 Le. subst sizeA. nia. }
  destruct (C86_life_of_a_new_device wB xts cB blank p io umask shift p0 seen tsB wB' lB g fin t' tB R SMB W2 K2 Ab Hp Hi Hf U Fi HlB LB At Us JB) as (contents & dB & O & DB & FB).
  assert (Sb : sector_count (l_bdev lB) = sizeB).
  { destruct (C84_new_device_comes_up wB xts cB blank p io umask shift p0 seen R SMB K2 Hp Hi Hf U Fi) as (lB0 & kB & hB & LB0 & ElB & WCB & _).
    assert (RB : lazy_ready lB0). { intros k' h' E'. rewrite ElB in E'. injection E' as <- <-. exact WCB. }
    destruct (life_len wB xts cB blank lB0 tsB wB' SMB W2 K2 Ab LB0 RB HlB) as (lB2 & LB2 & Eb). rewrite LB in LB2. apply Ok_inj in LB2. subst lB2.
    rewrite Eb. exact (size_of _ _ _ _ _ LB0). }
  exists dA, contents, dB. split; [exact DA|]. split; [|split; [exact DB|exact FB]].
  intros x Hx. destruct (FA x Hx) as (F1 & F2). rewrite F1. f_equal.
  set (st := x / n). assert (Hst : st < ac_count ar).
  { apply Nat.div_lt_upper_bound; [lia|]. rewrite E2 in Hx. lia. }
  assert (Ix : In x (seq (st * n) n)).
  { apply in_seq. subst st. pose proof (Nat.div_mod x n ltac:(lia)). pose proof (Nat.mod_upper_bound x n ltac:(lia)). nia. }
  assert (Is : forall y, In y (seq (st * n) n) -> length (cont y) = 512).
  { intros y Hy. apply in_seq in Hy. apply FA. rewrite E2. clear - Hy Hst. nia. }
  destruct (O x) as (O1 & O2); [lia|]. cbn [su_source su_base setup_of] in O1, O2. rewrite SoB, En in O1, O2. fold st in O1, O2. cbn [source_holds source_sector] in O1, O2.
  destruct (E3 st (or_introl Hst)) as (_ & Hfe & Hz). destruct (has_stripe src st) eqn:H1.
  - rewrite O1 by (now apply SetupProofs.has_stripe_spec). specialize (De st _ H1 Hfe).
    symmetry. refine (MoveProps.concat_same data cont _ Is _ De x Ix). unfold whole_sectors in W2. rewrite Hw in W2. intros y _. now rewrite W2.
  - rewrite O2 by (intros Hh; apply SetupProofs.has_stripe_spec in Hh; congruence). rewrite (Zb x Hx). specialize (Hz eq_refl).
    refine (MoveProps.concat_same cont (fun _ => repeat 0%N 512) _ _ _ _ x Ix).
    + intros. apply repeat_length.
    + intros y Hy. now rewrite Is.
    + unfold stripe_at in Hz. rewrite Hz. clear. generalize (st * n). clearbody n. induction n as [|n IH]; intros s0; [reflexivity|].
      cbn [seq map concat]. rewrite <- IH. change (S n * 512) with (512 + n * 512). apply repeat_app.
Qed.

(** ** A concrete case *)

(** A: 128 sectors of zeros in stripes of 64; an image is behind the first stripe, which has
    not been fetched; the second was never used. *)
Definition arch_a : config :=
  mk_config p_data (Some p_meta) true (Some (CRaw p_image false true)) Sync 4 false None (fun _ => None).
Definition x_files (meta : list byte) (p : path) : option (list byte) :=
  match p with
  | [1%N] => Some (repeat 0%N (128 * 512))
  | [2%N] => Some meta
  | [3%N] => Some (concat (map (fun x => fill (100 + N.of_nat x)%N) (seq 0 64)))
  | _ => None
  end.
Definition x_world0 : world := mk_world (x_files []) (fun _ => true) SrcNone.
Definition x_meta : list byte := content_of (hd NAbsent (fst (init_metadata (setup_of ex_xts x_world0 arch_a) SetupProps.works 18 6 NAbsent))).
Definition x_world : world := mk_world (x_files x_meta) (fun _ => true) SrcNone.
Definition x_l : launched := the_launched (launch x_world ex_xts arch_a (fill 0)).
Definition x_k : cfg sector := the_cfg x_l.
Definition x_h : nat -> N := the_headers x_l.

Lemma x_runs : is_launched (launch x_world ex_xts arch_a (fill 0)) = true.
Proof. vm_compute. reflexivity. Qed.
Lemma x_launched : launch x_world ex_xts arch_a (fill 0) = Ok x_l.
Proof. unfold x_l. exact (proj1 (by_running (launch x_world ex_xts arch_a (fill 0)) x_runs)). Qed.
Lemma x_parts : l_lazy x_l = Some (x_k, x_h).
Proof. unfold x_k, x_h, x_l. exact (proj2 (by_running (launch x_world ex_xts arch_a (fill 0)) x_runs)). Qed.
Lemma x_numbers : (ssc x_k, nst x_k, hps x_k, target x_k, src x_k) = (64, 2, 508, 128, 64) /\ map x_h [0; 1] = [4; 0]%N.
Proof. split; vm_compute; reflexivity. Qed.
Lemma x_all : lazy_ready x_l /\ in_whole_stripes x_l /\ nothing_half_written x_l.
Proof.
  assert (H : forall st, st < 2 -> x_h st = nth st [4; 0]%N 0%N).
  { destruct x_numbers as (_ & F). revert F. generalize x_h. intros h F. cbn [map] in F. injection F as F1 F2. intros [|[|st]] Hst; auto. lia. }
  destruct x_numbers as (E & _). pose proof x_parts as Y. revert Y. generalize x_l. generalize dependent x_k. generalize dependent x_h.
  intros h H c E l Y. injection E as E1 E2 E3 E4 E5.
  split; [|split; [split; [|rewrite Y; discriminate]|]]; intros k0 h0 E0; rewrite Y in E0; apply some_pair in E0 as (<- & <-); clear Y.
  - constructor; rewrite ?E1, ?E2, ?E3, ?E4, ?E5; try lia.
    + vm_compute. lia.
    + intros x Hx Hn Hf. left. rewrite H in Hf by exact Hn. destruct (x / 64) as [|[|i]] eqn:X; try discriminate Hf; [|lia]. pose proof (Nat.div_mod x 64 ltac:(lia)). pose proof (Nat.mod_upper_bound x 64 ltac:(lia)). lia.
    + intros st Hst Hf. rewrite H in Hf by exact Hst. destruct st as [|[|i]]; try discriminate Hf; lia.
  - now rewrite E1, E2, E4.
  - rewrite E2. intros st Hst. rewrite H by exact Hst. destruct st as [|[|i]]; try discriminate; lia.
Qed.
Lemma zeros_inside : forall n a, a + 512 <= n -> firstn 512 (skipn a (repeat 0%N n)) = repeat 0%N 512.
Proof.
  intros n a H. replace n with (a + (512 + (n - a - 512))) by lia. generalize (n - a - 512). intros r. rewrite (repeat_app 0%N a), skipn_app, repeat_length, Nat.sub_diag.
  rewrite skipn_all2 by (rewrite repeat_length; lia). cbn [skipn app]. rewrite (repeat_app 0%N 512), firstn_app, repeat_length, Nat.sub_diag.
  rewrite firstn_all2 by (rewrite repeat_length; lia). cbn [firstn]. apply app_nil_r.
Qed.
Lemma x_zeros : zeros_where_unused ex_xts x_world arch_a x_l.
Proof.
  intros k0 h0 E0 x Hx _ _. rewrite x_parts in E0. apply some_pair in E0 as (<- & _).
  assert (T : target x_k = 128) by (destruct x_numbers as (E & _); revert E; generalize x_k; intros c E; now injection E). rewrite T in Hx. clear T.
  unfold data_sector. cbn [cipher_of keys arch_a c_key c_data].
  apply (zeros_inside (128 * 512) (512 * x)). lia.
Qed.

(** The archiver itself run to its end, and a device made from what it wrote, are in
    [MoveProps.C71_restore_nonvacuous]. *)
Example C91_nonvacuous :
  source_matches x_world arch_a /\ whole_sectors x_world /\ cipher_ok (cipher_of ex_xts arch_a) /\ image_apart arch_a /\
  launch x_world ex_xts arch_a (fill 0) = Ok x_l /\ lazy_ready x_l /\ in_whole_stripes x_l /\
  life ex_xts arch_a (fill 0) x_world [] x_world /\ joined (V := sector) [] [] /\
  c_track arch_a = true /\ zeros_where_unused ex_xts x_world arch_a x_l /\ nothing_half_written x_l /\
  (exists a, archive_of x_world ex_xts arch_a OfflineProps.exo_options = Ok a) /\ lawful ArchiveToy.toy_prims /\
  OfflineProps.options_ok OfflineProps.exo_options.
Proof.
  destruct x_all as (X1 & X2 & X3).
  split; [exact I|]. split; [exact I|]. split; [exact I|].
  split. { intros p a r E. cbn [arch_a c_source] in E. injection E as <- _ _. split; discriminate. }
  split; [exact x_launched|]. split; [exact X1|]. split; [exact X2|]. split; [constructor|]. split; [constructor|]. split; [reflexivity|].
  split; [exact x_zeros|]. split; [exact X3|].
  split. { apply (C91_archive_starts x_world ex_xts arch_a (fill 0) x_l OfflineProps.exo_options I x_launched). discriminate. }
  split; [exact ArchiveToy.toy_lawful|exact OfflineProps.exo_options_ok].
Qed.

Print Assumptions C91_archive_starts.
Print Assumptions C91_archive_has_the_device_partial.
Print Assumptions C91_archive_can_be_a_source_partial.
Print Assumptions C91_restored_is_the_disk_partial.
