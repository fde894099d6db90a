(** C89: a device cloned from the stripe server of another one presents what that held.

    The backend of A has stopped, after any number of runs and crashes; the stripe server is
    started on its files.  B is a new device with that server as its source.  What the users
    of B see over its life is a disk that began with what the users of A would have found on
    theirs; whatever each of them encrypts with, whichever engine they use, and whether the
    stripes of A have been fetched from a source of its own or not. *)
From Coq Require Import List Arith NArith ZArith Bool Lia ZifyBool ZifyNat ZifyN.
Import ListNotations.
From Verif Require Import LayerModel SyncModel.
From Verif Require Import Base BaseFacts DiskSpec MetadataModel MetadataSpec LazyState LazyModel LazySpec CryptModel CryptSpec SetupModel SetupSpec
  StackModel StackSpec StackProofs StackProps RestartSpec RestartFacts RestartProofs RestartProps CloneModel CloneSpec CloneProofs.
From Verif Require RemoteModel RemoteProofs OfflineProps MoveProps SetupProps.
Local Open Scope nat_scope.
Ltac Zify.zify_post_hook ::= Z.div_mod_to_equations.

Lemma held : forall hs st, RemoteModel.remote_has_stripe hs st = Ok true <->
  st < length hs /\ (N.testbit (nth st hs 0%N) 1 = true \/ N.testbit (nth st hs 0%N) 2 = true).
Proof.
  intros hs st. unfold RemoteModel.remote_has_stripe. destruct (Nat.leb_spec (length hs) st) as [H|H]; [split; [discriminate|lia]|].
  rewrite (index_ok _ _ 0%N) by exact H. cbn [bindr].
  change (RemoteModel.flag FLAG_WRITTEN) with (has_flag FLAG_WRITTEN). change (RemoteModel.flag FLAG_HAS_SOURCE) with (has_flag FLAG_HAS_SOURCE).
  rewrite OfflineProps.hf_written, OfflineProps.hf_source.
  destruct (N.testbit (nth st hs 0%N) 1), (N.testbit (nth st hs 0%N) 2); cbn [orb]; split; try discriminate; auto; intros (_ & [E|E]); discriminate.
Qed.

Lemma life_len : forall w (xts : xts_type) c blank l ts w', source_matches w c -> whole_sectors w -> cipher_ok (cipher_of xts c) -> image_apart c ->
  launch w xts c blank = Ok l -> lazy_ready l -> life xts c blank w ts w' ->
  exists l', launch w' xts c blank = Ok l' /\ l_bdev l' = l_bdev l.
Proof.
  intros w xts c blank l ts w' SM W K A L WC H. revert l SM W L WC. induction H as [w|w l0 g t0 w1 ts w2 L0 Lf Us St Hl IH]; intros l SM W L WC; [eauto|].
  rewrite L in L0. apply Ok_inj in L0. subst l0.
  destruct (C86_comes_up_again w xts c blank l g t0 w1 SM W K A L WC Lf Us) as (l1 & d1 & L1 & E1 & WC1 & _).
  destruct (left_source _ _ _ _ _ _ Lf) as (S1 & S2). destruct (IH l1 (S1 SM) (S2 W) L1 WC1) as (l' & L' & E'). exists l'. split; [exact L'|congruence].
Qed.

Lemma plain_starts : forall w (xts : xts_type) c blank l, launch w xts c blank = Ok l -> l_lazy l = None -> source_matches w c ->
  exists ss, stripe_server w xts c = Ok ss /\
    length (md_headers (RemoteModel.ss_meta ss)) = div_ceil (sector_count (l_bdev l)) (N.to_nat 2048) /\
    (2 ^ md_shift (RemoteModel.ss_meta ss) = 2048)%N.
Proof.
  intros w xts c blank l L El SM. destruct (lazy_iff w xts c blank l SM L) as (_ & N1).
  destruct (c_metadata c) eqn:Hp. { destruct N1 as (k & h & E & _); [discriminate|]. congruence. }
  pose proof (size_of _ _ _ _ _ L) as Sz. unfold launch, build in L. apply bind_ok in L as (e & L & _). destruct (negb _) in L; [discriminate|].
  apply bind_ok in L as (disk & D & _). unfold stripe_server. rewrite D. cbn [bindr]. rewrite Hp. apply (block_ok w xts) in D. pose proof (device_count w xts _ _ _ _ D) as (_ & Cd).
  unfold RemoteModel.prepare_stripe_server. eexists. split; [reflexivity|]. cbn [RemoteModel.ss_meta md_headers md_shift metadata_new]. rewrite !map_length, seq_length, Cd, Sz.
  split; reflexivity.
Qed.

(** The server starts on the files a backend of the same configuration comes up on, if a
    source is configured or no stripe is left to fetch from it; without metadata it always
    does, with stripes of 2048 sectors. *)
Theorem C89_server_starts : forall w (xts : xts_type) c blank l,
  source_matches w c -> launch w xts c blank = Ok l ->
  (forall k h, l_lazy l = Some (k, h) ->
    c_source c <> None \/ forall st, st < nst k -> N.testbit (h st) 2 = true -> N.testbit (h st) 0 = true) ->
  exists ss, stripe_server w xts c = Ok ss /\
    let stripes := length (md_headers (RemoteModel.ss_meta ss)) in let n := (2 ^ md_shift (RemoteModel.ss_meta ss))%N in
    match l_lazy l with
    | Some (k, _) => stripes = nst k /\ N.to_nat n = ssc k
    | None => stripes = div_ceil (sector_count (l_bdev l)) (N.to_nat 2048) /\ n = 2048%N
    end.
Proof.
  intros w xts c blank l SM L Hf. destruct (lazy_iff w xts c blank l SM L) as (N0 & _).
  destruct (l_lazy l) as [(k & h)|] eqn:El; [|exact (plain_starts w xts c blank l L El SM)]. specialize (Hf _ _ eq_refl).
  destruct (c_metadata c) as [p|] eqn:Hp; [|specialize (N0 eq_refl); discriminate N0].
  destruct (start_of w xts c l blank p SM Hp L) as (k' & h' & El' & St). rewrite El in El'. injection El' as <- <-.
  unfold start in St. apply bind_ok in St as (t & T & St). apply bind_ok in St as (m & Lm & St). apply bind_ok in St as (b & _ & St).
  destruct (_ <? div_ceil _ _); [discriminate|]. destruct (_ <? _); [discriminate|]. apply Ok_inj in St.
  assert (Ek := f_equal fst St). assert (Eh := f_equal snd St). cbn [fst snd] in Ek, Eh. clear St. subst k h. cbn [nst ssc] in *.
  assert (B : exists disk meta, build_block_device w (c_data c) c false = Ok disk /\ build_block_device w p c false = Ok meta).
  { unfold launch, build in L. apply bind_ok in L as (e & L & _). destruct (negb _) in L; [discriminate|]. apply bind_ok in L as (disk & D & L).
    rewrite Hp in L. apply bind_ok in L as (meta & M & _). eauto. }
  destruct B as (disk & meta & D & M). unfold stripe_server. rewrite D. cbn [bindr]. rewrite Hp, M. cbn [bindr].
  assert (Sm : serving_metadata w xts meta (sector_count disk) = Ok m).
  { apply (block_ok w xts) in M. destruct (device_cipher w xts _ _ _ _ M) as (o & n & (P & _) & -> & _). cbn [su_cipher setup_of] in Lm. unfold load_image in Lm.
    apply bind_ok in Lm as (sc & O1 & Lm). destruct (negb _) eqn:B1 in Lm; [discriminate|]. apply bind_ok in Lm as (buf & Db & Lm).
    destruct (from_bytes_form _ _ Lm) as (_ & _ & Nl). unfold cipher_of in Db. unfold serving_metadata, read_metadata_bytes, RemoteModel.load_metadata_for_serving.
    destruct (keys c) as [[k1 k2]|]; rewrite P, O1; cbn [bindr]; rewrite B1, Db; cbn [bindr]; now rewrite Nl. }
  rewrite Sm. cbn [bindr]. unfold RemoteModel.prepare_stripe_server.
  assert (Nb : negb (has_fetched_all_stripes m) && negb (match c_source c with Some _ => true | None => false end) = false).
  { destruct (c_source c); [apply andb_false_r|]. destruct Hf as [Hf|Hf]; [congruence|]. rewrite andb_true_r. apply negb_false_iff. unfold has_fetched_all_stripes.
    apply forallb_forall. intros x Hx. apply (In_nth _ _ 0%N) in Hx as (st & Hst & <-). specialize (Hf st Hst).
    rewrite <- OfflineProps.hf_source, <- OfflineProps.hf_fetched in Hf. unfold has_flag in Hf.
    destruct (N.land (nth st (md_headers m) 0%N) FLAG_HAS_SOURCE =? 0)%N; [reflexivity|]. now apply Hf. }
  rewrite Nb. eexists. split; [reflexivity|]. cbn [RemoteModel.ss_meta]. unfold stripe_sector_count. rewrite N.shiftl_1_l.
  destruct (c_track c); cbn; rewrite ?map_length; auto.
Qed.

(** The server answers for every stripe with what the device holds; what it says it has no
    data for are zeros. *)
Theorem C89_server_has_the_device : forall (xts : xts_type) blank c w l ts t w' l' ss o,
  source_matches w c -> whole_sectors w -> cipher_ok (cipher_of xts c) -> image_apart c ->
  launch w xts c blank = Ok l -> lazy_ready l -> in_whole_stripes l -> (c_track c = true -> zeros_where_unused xts w c l) ->
  life xts c blank w ts w' -> joined ts t -> launch w' xts c blank = Ok l' ->
  stripe_server w' xts c = Ok ss -> reads_device xts w' c ss o ->
  let n := N.to_nat (2 ^ md_shift (RemoteModel.ss_meta ss)) in
  exists d contents, disk_behaviour (sector_count (l_bdev l)) (configured_contents xts w c l) t d /\
    (forall x, x < sector_count (l_bdev l) -> cur (d_hist d x) = Some (contents x) /\ length (contents x) = 512) /\
    sector_count (l_bdev l) = length (md_headers (RemoteModel.ss_meta ss)) * n /\
    forall st, st < length (md_headers (RemoteModel.ss_meta ss)) ->
      (RemoteModel.remote_has_stripe (md_headers (RemoteModel.ss_meta ss)) st = Ok true /\
       exists reply, RemoteModel.handle_read_stripe ss o (N.of_nat st) = Ok (reply, true) /\
         forall more, RemoteModel.client_fetch_stripe (Some (RemoteModel.ss_meta ss)) (reply ++ more) =
           RemoteModel.COk (stripe_at contents n st) more) \/
      (RemoteModel.remote_has_stripe (md_headers (RemoteModel.ss_meta ss)) st = Ok false /\ c_track c = true /\
       stripe_at contents n st = repeat 0%N (n * 512)).
Proof.
  intros xts blank c w l ts t w' l' ss o SM W K A L WC Wh Z Hl J L' Es Rd n.
  destruct (C86_one_disk_for_life xts c blank w l ts t w' SM W K A L WC Hl J) as (l2 & d & L2 & Eb & WC2 & D & F).
  rewrite L' in L2. apply Ok_inj in L2. subst l2.
  destruct (unused_for_life xts c blank w l ts w' l' SM W K A L WC Wh Hl L') as (Wh' & Z').
  assert (S' : source_matches w' c /\ whole_sectors w').
  { clear - Hl SM W. induction Hl as [w|w l0 g t0 w1 ts w2 L0 Lf Us St Hl IH]; [auto|]. destruct (left_source _ _ _ _ _ _ Lf) as (S1 & S2). auto. }
  destruct S' as (SM' & W').
  destruct (server_any w' xts c blank l' ss o SM' W' K L' WC2 Wh' (fun T => Z' T (Z T)) Es Rd) as (E1 & E2).
  exists d, (configured_contents xts w' c l'). split; [exact D|].
  split; [intros x Hx; split; [exact (F x Hx)|]; apply (contents_length w' xts c l' blank SM' W' K L' WC2); now rewrite Eb|].
  split; [rewrite <- Eb; exact E1|exact E2].
Qed.

(** The clone. *)
Theorem C89_clone_is_the_disk : forall (xts : xts_type) blank
    cA wA lA tsA tA wA' lA' ss o
    cB wB p io umask p0 seen data a tsB wB' lB g fin t' tB,
  (* A, its life, and the server on what it left behind *)
  source_matches wA cA -> whole_sectors wA -> cipher_ok (cipher_of xts cA) -> image_apart cA ->
  launch wA xts cA blank = Ok lA -> lazy_ready lA -> in_whole_stripes lA -> (c_track cA = true -> zeros_where_unused xts wA cA lA) ->
  life xts cA blank wA tsA wA' -> joined tsA tA -> launch wA' xts cA blank = Ok lA' ->
  stripe_server wA' xts cA = Ok ss -> reads_device xts wA' cA ss o ->
  (* B, made with stripes of the same size *)
  ready wB cB -> whole_sectors wB -> cipher_ok (cipher_of xts cB) -> c_metadata cB = Some p ->
  c_source cB = Some (CRemote a) -> w_source wB = SrcRemote (RemoteModel.ss_meta ss) data -> delivers ss o data ->
  init_metadata (setup_of xts wB cB) io umask (md_shift (RemoteModel.ss_meta ss)) p0 = (seen, Ok tt) ->
  w_file wB p = Some (content_of (hd p0 seen)) ->
  let sizeA := sector_count (l_bdev lA) in
  let sizeB := length (file_of wB (c_data cB)) / 512 in
  sizeA <= sizeB -> (N.of_nat sizeA < 2 ^ 64)%N ->
  (c_track cA = true -> forall x, x < sizeA -> data_sector xts wB cB x = repeat 0%N 512) ->
  (* its life *)
  life xts cB blank wB tsB wB' -> launch wB' xts cB blank = Ok lB ->
  at_work xts wB' lB g fin -> used_by (sector_count (l_bdev lB)) g t' -> joined (tsB ++ [t']) tB ->
  exists dA contents dB,
    disk_behaviour sizeA (configured_contents xts wA cA lA) tA dA /\
    (forall x, x < sizeA -> cur (d_hist dA x) = Some (contents x)) /\
    disk_behaviour (sector_count (l_bdev lB)) contents tB dB /\
    (forall x, x < sector_count (l_bdev lB) -> cur (d_hist dB x) = fin x).
Proof.
  intros xts blank cA wA lA tsA tA wA' lA' ss o cB wB p io umask p0 seen data a tsB wB' lB g fin t' tB
    SM W K A L WC Wh Z Hl J L' Es Rd R W2 K2 Hp Hs Hw De Hi Hf sizeA sizeB Le Lt Zb HlB LB At Us JB.
  destruct (C89_server_has_the_device xts blank cA wA lA tsA tA wA' lA' ss o SM W K A L WC Wh Z Hl J L' Es Rd)
    as (dA & cont & DA & FA & E2 & E3).
  set (m := RemoteModel.ss_meta ss) in *. set (n := N.to_nat (2 ^ md_shift m)) in *.
  assert (SMB : source_matches wB cB) by (unfold source_matches; rewrite Hs, Hw; eauto).
  assert (SoB : source_of wB cB = SrcRemote m data) by (unfold source_of; now rewrite Hs, Hw).
  assert (Ab : image_apart cB) by (intros p' a' r' E; congruence).
  pose proof (N2Nat.id (2 ^ md_shift m)) as P2. fold n in P2.
  assert (Hk : 0 < n). { assert (2 ^ md_shift m <> 0)%N by (apply N.pow_nonzero; lia). lia. }
  fold sizeA in E2.
  destruct (C86_life_of_a_new_device wB xts cB blank p io umask (md_shift m) p0 seen tsB wB' lB g fin t' tB R SMB W2 K2 Ab Hp Hi Hf) as (contents & dB & O & DB & FB); auto.
  - rewrite SoB. split; [reflexivity|]. rewrite <- P2. fold sizeA in Lt. nia.
  - rewrite SoB. fold n. intros st (Hst & _). fold sizeB. nia.
  - assert (Sb : sector_count (l_bdev lB) = sizeB).
    { destruct (C84_new_device_comes_up wB xts cB blank p io umask (md_shift m) p0 seen R SMB K2 Hp Hi Hf) as (lB0 & kB & hB & LB0 & ElB & WCB & _).
      { rewrite SoB. split; [reflexivity|]. rewrite <- P2. nia. }
      { rewrite SoB. fold n. intros st (Hst & _). fold sizeB. nia. }
      assert (RB : lazy_ready lB0). { intros k' h' E'. rewrite ElB in E'. injection E' as <- <-. exact WCB. }
      destruct (life_len wB xts cB blank lB0 tsB wB' SMB W2 K2 Ab LB0 RB HlB) as (lB2 & LB2 & Eb). rewrite LB in LB2. apply Ok_inj in LB2. subst lB2.
      rewrite Eb. exact (size_of _ _ _ _ _ LB0). }
    exists dA, contents, dB. split; [exact DA|]. split; [|split; [exact DB|exact FB]].
    intros x Hx. destruct (FA x Hx) as (F1 & F2). rewrite F1. f_equal.
    set (st := x / n). assert (Hst : st < length (md_headers m)).
    { apply Nat.div_lt_upper_bound; [lia|]. fold sizeA in Hx. lia. }
    assert (Ix : In x (seq (st * n) n)).
    { apply in_seq. subst st. pose proof (Nat.div_mod x n ltac:(lia)). pose proof (Nat.mod_upper_bound x n ltac:(lia)). nia. }
    assert (Is : forall y, In y (seq (st * n) n) -> length (cont y) = 512).
    { intros y Hy. apply in_seq in Hy. apply FA. fold sizeA. rewrite E2. nia. }
    destruct (O x) as (O1 & O2); [lia|]. cbn [su_source su_base setup_of] in O1, O2. rewrite SoB in O1, O2. fold n st in O1, O2. cbn [source_holds source_sector] in O1, O2.
    destruct (E3 st Hst) as [(H1 & reply & Hr & Hc)|(H1 & Tk & Hz)].
    + rewrite O1 by (apply held; exact H1). specialize (Hc []). rewrite app_nil_r in Hc. specialize (De st reply _ _ H1 Hr Hc). fold m n in De.
      symmetry. refine (MoveProps.concat_same data cont _ Is _ De x Ix). unfold whole_sectors in W2. rewrite Hw in W2. intros y _. now rewrite W2.
    + rewrite O2 by (intros Hh; apply held in Hh; congruence). rewrite (Zb Tk x Hx).
      refine (MoveProps.concat_same cont (fun _ => repeat 0%N 512) _ _ _ _ x Ix).
      * intros. apply repeat_length.
      * intros y Hy. now rewrite Is.
      * unfold stripe_at in Hz. rewrite Hz. clear. generalize (st * n). clearbody n. induction n as [|n IH]; intros s0; [reflexivity|].
        cbn [seq map concat]. rewrite <- IH. change (S n * 512) with (512 + n * 512). apply repeat_app.
Qed.

(** Clients of the server get the device's contents. *)
Lemma delivers_contents : forall w (xts : xts_type) c blank l k h ss o data,
  source_matches w c -> whole_sectors w -> cipher_ok (cipher_of xts c) -> launch w xts c blank = Ok l -> lazy_ready l ->
  l_lazy l = Some (k, h) -> in_whole_stripes l -> (c_track c = true -> zeros_where_unused xts w c l) ->
  stripe_server w xts c = Ok ss -> reads_device xts w c ss o ->
  (forall x, x < target k -> configured_contents xts w c l x = data x) -> delivers ss o data.
Proof.
  intros w xts c blank l k h ss o data SM W K L WC El Wh Z Es Rd Hd st reply bytes rest H1 H2 H3.
  destruct (server_contents w xts c blank l k h ss o SM W K L WC El Wh Z Es Rd) as (E1 & E2 & E3).
  assert (Hst : st < nst k). { apply held in H1. rewrite <- E2. exact (proj1 H1). }
  destruct (E3 st Hst) as [(_ & r & Er & Ec)|(X & _)]; [|congruence].
  rewrite H2 in Er. apply Ok_inj in Er. apply (f_equal fst) in Er. cbn [fst] in Er. subst r. specialize (Ec []). rewrite app_nil_r, H3 in Ec.
  injection Ec as -> _. rewrite E1. unfold stripe_at. apply map_concat_ext. intros x Hx. symmetry. apply Hd.
  apply in_seq in Hx. rewrite (proj1 Wh _ _ El). nia.
Qed.

(** ** A concrete case *)

Definition the_launched (r : res launched) : launched := match r with Ok l => l | _ => mk_launched (DFile (mk_opening [] Sync 0 true true true) 0) [] None end.
Definition the_cfg (l : launched) : cfg sector := match l_lazy l with Some (c, _) => c | None => GuestProps.ex_cfg end.
Definition the_headers (l : launched) : nat -> N := match l_lazy l with Some (_, h) => h | None => fun _ => 0%N end.
Definition is_launched (r : res launched) : bool := match r with Ok l => match l_lazy l with Some _ => true | None => false end | _ => false end.

Lemma by_running : forall r, is_launched r = true -> r = Ok (the_launched r) /\ l_lazy (the_launched r) = Some (the_cfg (the_launched r), the_headers (the_launched r)).
Proof.
  intros [l| |] H; try discriminate H. split; [reflexivity|]. cbn [the_launched is_launched] in *. unfold the_cfg, the_headers. destruct (l_lazy l) as [[c h]|]; [reflexivity|discriminate H].
Qed.

(** A: encrypted, 128 sectors in stripes of 64, an image behind the first of them, which has
    not been fetched.  It is served as it is. *)
Definition clone_a : config :=
  mk_config p_data (Some p_meta) false (Some (CRaw p_image false true)) IoUring 4 false (Some [7%N]) (fun _ => Some ex_key).
Definition a_files (meta : list byte) (p : path) : option (list byte) :=
  match p with
  | [1%N] => Some (repeat 3%N (128 * 512))
  | [2%N] => Some meta
  | [3%N] => Some (concat (map (fun x => fill (100 + N.of_nat x)%N) (seq 0 64)))
  | _ => None
  end.
Definition a_world0 : world := mk_world (a_files []) (fun _ => true) SrcNone.
Definition a_meta : list byte := content_of (hd NAbsent (fst (init_metadata (setup_of ex_xts a_world0 clone_a) SetupProps.works 18 6 NAbsent))).
Definition a_world : world := mk_world (a_files a_meta) (fun _ => true) SrcNone.
Definition a_l : launched := the_launched (launch a_world ex_xts clone_a (fill 0)).
Definition a_k : cfg sector := the_cfg a_l.
Definition a_h : nat -> N := the_headers a_l.

(** Its server: stripe 0 has a source, stripe 1 counts as written. *)
Definition a_server : RemoteModel.session :=
  RemoteModel.mk_session (current_metadata 6 [FLAG_HAS_SOURCE; FLAG_WRITTEN]%N) true.
Definition a_io : RemoteModel.io :=
  RemoteModel.mk_io (fun off _ _ => Some (stripe_at (data_sector ex_xts a_world clone_a) 64 (N.to_nat (off / 64))))
    (fun i _ => Some (stripe_at (sourced a_world clone_a) 64 (N.to_nat i))).

(** B: not encrypted, 192 sectors, the other engine. *)
Definition b_data (x : nat) : sector :=
  if x <? 64 then fill (100 + N.of_nat x)%N else if x <? 128 then data_sector ex_xts a_world clone_a x else fill 0.
Definition clone_b : config :=
  mk_config [4%N] (Some [5%N]) true (Some (CRemote false)) Sync 4 false None (fun _ => None).
Definition b_files (meta : list byte) (p : path) : option (list byte) :=
  match p with
  | [4%N] => Some (repeat 9%N (192 * 512))
  | [5%N] => Some meta
  | _ => None
  end.
Definition b_source : stripe_source sector := SrcRemote (RemoteModel.ss_meta a_server) b_data.
Definition b_world0 : world := mk_world (b_files []) (fun _ => true) b_source.
Definition b_seen : list node := fst (init_metadata (setup_of ex_xts b_world0 clone_b) SetupProps.works 18 6 NAbsent).
Definition b_world : world := mk_world (b_files (content_of (hd NAbsent b_seen))) (fun _ => true) b_source.
Definition b_l : launched := the_launched (launch b_world ex_xts clone_b (fill 0)).
Definition b_k : cfg sector := the_cfg b_l.
Definition b_h : nat -> N := the_headers b_l.

(** The session of C78: the guest writes 7 to sector 1, of a stripe that has to be fetched
    from the server first, and flushes; the power fails; it reads sectors 0 to 3. *)
Definition b_open : list (oevent sector) :=
  firstn 22 LayerProps.ex_open ++ [ OOwn (EAdd 1 2 (RRead 0 4)); OBase 10 true GuestProps.ex_found ].
Definition b_between : list (titem sector) :=
  [ TIssue 3 0 0 (RWrite 0 (map b_data (seq 0 64))); TDone 3 0 0 true []; TIssue 4 0 0 RFlush; TDone 4 0 0 true [];
    TIssue 1 1 0 (RWrite 1 [fill 7]); TDone 1 1 0 true []; TIssue 9 1 0 RFlush; TDone 9 1 0 true []; TCrash;
    TIssue 10 2 2 (RRead 0 4); TDone 10 2 2 true GuestProps.ex_found ].
Definition b_ses : list (sevent sector) :=
  [ SWrite 3 0 0 0 64 (map b_data (seq 0 64)); SCopy 0 64; SReturn 0 (Moved 64); SPoll 0; SFlush 4 0 0; SReturn 0 (Moved 0); SPoll 0;
    SWrite 1 1 0 1 1 [fill 7]; SCopy 1 1; SReturn 1 (Moved 1); SPoll 1; SFlush 9 1 0; SReturn 1 (Moved 0); SPoll 1; SCrash (fun _ => 0);
    SRead 10 2 2 0 4 (repeat (fill 0) 4); SReturn 2 (Moved 4); SPoll 2 ].

Lemma a_runs : is_launched (launch a_world ex_xts clone_a (fill 0)) = true.
Proof. vm_compute. reflexivity. Qed.
Lemma a_launched : launch a_world ex_xts clone_a (fill 0) = Ok a_l.
Proof. unfold a_l. exact (proj1 (by_running (launch a_world ex_xts clone_a (fill 0)) a_runs)). Qed.
Lemma a_parts : l_lazy a_l = Some (a_k, a_h).
Proof. unfold a_k, a_h, a_l. exact (proj2 (by_running (launch a_world ex_xts clone_a (fill 0)) a_runs)). Qed.
Lemma a_ready : lazy_ready a_l.
Proof.
  intros k0 h0 E0. rewrite a_parts in E0. apply some_pair in E0 as (<- & <-).
  assert (E : (ssc a_k, nst a_k, hps a_k, target a_k, src a_k) = (64, 2, 508, 128, 64)) by (vm_compute; reflexivity).
  assert (F : map a_h [0; 1] = [FLAG_HAS_SOURCE; 0%N]) by (vm_compute; reflexivity).
  generalize dependent a_k. generalize dependent a_h. intros h F c E. injection E as E1 E2 E3 E4 E5. injection F as F1 F2.
  assert (H : forall st, st < 2 -> h st = if st <? 1 then FLAG_HAS_SOURCE else 0%N).
  { intros [|[|st]] Hst; auto. lia. }
  constructor; rewrite ?E1, ?E2, ?E3, ?E4, ?E5; try lia.
  - vm_compute. lia.
  - intros x Hx Hn Hf. left. rewrite H in Hf by exact Hn. destruct (x / 64 <? 1) eqn:L; [|discriminate]. apply Nat.ltb_lt in L. lia.
  - intros st Hst Hf. rewrite H in Hf by exact Hst. destruct (st <? 1); discriminate.
Qed.
Lemma a_whole : in_whole_stripes a_l.
Proof.
  split; [|rewrite a_parts; discriminate]. intros k0 h0 E0. rewrite a_parts in E0. apply some_pair in E0 as (<- & <-).
  assert (E : (ssc a_k, nst a_k, target a_k) = (64, 2, 128)) by (vm_compute; reflexivity).
  generalize dependent a_k. intros c E. injection E as E1 E2 E3. now rewrite E1, E2, E3.
Qed.
Lemma a_serves : stripe_server a_world ex_xts clone_a = Ok a_server.
Proof. vm_compute. reflexivity. Qed.
Lemma a_reads : reads_device ex_xts a_world clone_a a_server a_io.
Proof.
  intros st Hst. cbv zeta. change (md_shift (RemoteModel.ss_meta a_server)) with 6%N in *. change (2 ^ 6)%N with 64%N. change (N.to_nat 64) with 64.
  unfold a_io. cbn [RemoteModel.io_dev RemoteModel.io_src]. rewrite N.div_mul by lia. rewrite Nat2N.id. auto.
Qed.
Lemma a_contents : forall x, x < 128 -> configured_contents ex_xts a_world clone_a a_l x = b_data x.
Proof.
  assert (E : map (configured_contents ex_xts a_world clone_a a_l) (seq 0 128) = map b_data (seq 0 128)) by (vm_compute; reflexivity).
  intros x Hx. assert (Y := f_equal (fun l => nth x l []) E). cbv beta in Y. rewrite !nth_tabulated in Y by exact Hx. exact Y.
Qed.

Lemma a_delivers : delivers a_server a_io b_data.
Proof.
  assert (T : target a_k = 128) by (vm_compute; reflexivity).
  refine (delivers_contents a_world ex_xts clone_a (fill 0) a_l a_k a_h a_server a_io b_data I I _ a_launched a_ready a_parts a_whole _ a_serves a_reads _).
  - apply ex_xts_ok.
  - intros E. discriminate E.
  - rewrite T. exact a_contents.
Qed.

Lemma more_sectors : forall valid qsize did nslots bufsize size size' m0 g P tr gtr, size <= size' ->
  GuestSpec.session valid qsize did nslots bufsize size m0 g P tr gtr -> GuestSpec.session valid qsize did nslots bufsize size' m0 g P tr gtr.
Proof.
  intros valid qsize did nslots bufsize size size' m0 g P tr gtr L H. induction H as [|g P tr gtr e g' t P' w H IH D G Wt]; [constructor|].
  eapply GuestSpec.s_event; [exact IH| |exact G|exact Wt]. destruct e; try exact D. cbn in D |- *.
  destruct D as (D1 & D2 & rq & hd0 & ds & st & B1 & B2 & B3 & B4 & B5). split; [exact D1|]. split; [exact D2|]. exists rq, hd0, ds, st.
  split; [exact B1|]. split; [exact B2|]. split; [exact B3|]. split; [|exact B5]. intros X. destruct (B4 X) as (C1 & C2 & C3). split; [exact C1|]. split; [exact C2|]. lia.
Qed.

Lemma b_runs : is_launched (launch b_world ex_xts clone_b (fill 0)) = true.
Proof. vm_compute. reflexivity. Qed.
Lemma b_launched : launch b_world ex_xts clone_b (fill 0) = Ok b_l.
Proof. unfold b_l. exact (proj1 (by_running (launch b_world ex_xts clone_b (fill 0)) b_runs)). Qed.
Lemma b_parts : l_lazy b_l = Some (b_k, b_h).
Proof. unfold b_k, b_h, b_l. exact (proj2 (by_running (launch b_world ex_xts clone_b (fill 0)) b_runs)). Qed.

Lemma b_numbers : ssc b_k = 64 /\ nst b_k = 3.
Proof. split; vm_compute; reflexivity. Qed.
Lemma b_fit : LayerProps.requests_fit b_k b_open.
Proof.
  destruct b_numbers as (N1 & N2). generalize dependent b_k. intros c N1 N2 q id r H. unfold in_bounds. rewrite N1, N2. unfold b_open in H. apply in_app_or in H as [H|H].
  - assert (X : in_bounds ex_c r) by (apply (ex_fit q id); rewrite <- (firstn_skipn 22 LayerProps.ex_open); apply in_or_app; now left).
    assert (E : ssc ex_c = 2 /\ nst ex_c = 3) by (split; vm_compute; reflexivity). destruct E as (E1 & E2).
    unfold in_bounds in X. rewrite E1, E2 in X. clear - X. destruct r; [lia|lia|exact X].
  - clear - H. destruct H as [H|[H|[]]]; [|discriminate H]. injection H as _ _ <-. lia.
Qed.
Lemma b_runs_open : exists so, orun b_k (oinit b_k b_h) b_open = Some (so, GuestProps.ex_tr, b_between) /\ released (shf so 0) = true /\ released (shf so 1) = false.
Proof.
  assert (E1 : option_map (fun x => (snd (fst x), snd x, (released (shf (fst (fst x)) 0), released (shf (fst (fst x)) 1))))
            (orun b_k (oinit b_k b_h) b_open) = Some (GuestProps.ex_tr, b_between, (true, false))) by (vm_compute; reflexivity).
  revert E1. generalize b_between. generalize GuestProps.ex_tr. generalize (orun b_k (oinit b_k b_h) b_open). intros [[[so g] b]|] g' b' E1; [|discriminate E1].
  cbn [option_map fst snd] in E1. injection E1 as <- <- G0 G1. exists so. auto.
Qed.
Lemma b_runs_sync : exists s, srun 512 1 false false (new_sdev 192 (sector_at b_world [4%N])) b_ses = Some (s, b_between) /\
  SyncModel.cur_cell (s_cell s 1) = Some (fill 7) /\ SyncModel.cur_cell (s_cell s 2) = Some (fill 102).
Proof.
  assert (E3 : option_map (fun x => (snd x, SyncModel.cur_cell (s_cell (fst x) 1), SyncModel.cur_cell (s_cell (fst x) 2)))
      (srun 512 1 false false (new_sdev 192 (sector_at b_world [4%N])) b_ses) = Some (b_between, Some (fill 7), Some (fill 102))) by (vm_compute; reflexivity).
  revert E3. generalize b_between. generalize (fill 7). generalize (fill 102). generalize (srun 512 1 false false (new_sdev 192 (sector_at b_world [4%N])) b_ses).
  intros [[s b]|] v1 v2 b' E3; [|discriminate E3]. cbn [option_map fst snd] in E3. apply (f_equal (fun x => match x with Some y => y | None => ([], None, None) end)) in E3.
  cbv beta iota in E3. apply pair_equal_spec in E3 as (E3 & F2). apply pair_equal_spec in E3 as (-> & F1). exists s. auto.
Qed.
Lemma b_in_range : Forall (SyncSpec.call_in_range 1 192) b_ses.
Proof.
  unfold b_ses. generalize (map_length b_data (seq 0 64)). generalize (map b_data (seq 0 64)). rewrite seq_length. intros l Hl.
  generalize (fill 7) (fill 0). intros v z.
  repeat apply Forall_cons; try apply Forall_nil; cbn [SyncSpec.call_in_range]; try exact I; rewrite ?Hl, ?repeat_length; cbn [length]; lia.
Qed.
Lemma b_bdev : exists o i tw, l_bdev b_l = DLazy (DFile o 192) i tw /\ o_path o = [4%N] /\ o_engine o = Sync /\ o_readonly o = false /\ o_sync o = false.
Proof.
  assert (Db : match l_bdev b_l with
               | DLazy (DFile o n) _ _ => Some (n, o_path o, o_engine o, o_readonly o, o_sync o)
               | _ => None end = Some (192, [4%N], Sync, false, false)) by (vm_compute; reflexivity).
  revert Db. generalize (l_bdev b_l). generalize 192. intros n d Db. destruct d as [|?|[o m| |] i tw]; try discriminate Db.
  injection Db as -> E1 E2 E3 E4. exists o, i, tw. auto.
Qed.
Lemma b_image : image b_k 64 = data_sector ex_xts a_world clone_a 64.
Proof. vm_compute. reflexivity. Qed.

Lemma b_works : exists fin, at_work ex_xts b_world b_l GuestProps.ex_tr fin /\ fin 1 = Some (fill 7) /\ fin 2 = Some (fill 102) /\
  fin 64 = Some (data_sector ex_xts a_world clone_a 64).
Proof.
  destruct b_bdev as (o & i & tw & B & Ep & Ee & Er & Es). destruct b_runs_open as (so & R1 & G0 & G1). destruct b_runs_sync as (s & R3 & F1 & F2).
  exists (fun x => if released (shf so (x / 64)) then SyncModel.cur_cell (s_cell s x) else Some (image b_k x)). cbv beta. split.
  - unfold at_work. rewrite B, b_parts. exists b_open, so, b_between, (fun x => SyncModel.cur_cell (s_cell s x)).
    split; [exact b_fit|]. split; [exact R1|]. split; [|intros x; rewrite (proj1 b_numbers); reflexivity].
    apply (serves_sync ex_xts b_world o 192 b_ses s b_between Ee); [reflexivity|exact b_in_range|]. rewrite Er, Es, Ep. exact R3.
  - change (1 / 64) with 0. change (2 / 64) with 0. change (64 / 64) with 1. rewrite G0, G1, b_image. auto.
Qed.

Example C89_nonvacuous :
  source_matches a_world clone_a /\ whole_sectors a_world /\ cipher_ok (cipher_of ex_xts clone_a) /\ image_apart clone_a /\
  launch a_world ex_xts clone_a (fill 0) = Ok a_l /\ lazy_ready a_l /\ in_whole_stripes a_l /\
  life ex_xts clone_a (fill 0) a_world [] a_world /\ l_lazy a_l = Some (a_k, a_h) /\
  stripe_server a_world ex_xts clone_a = Ok a_server /\ reads_device ex_xts a_world clone_a a_server a_io /\
  ready b_world clone_b /\ whole_sectors b_world /\ cipher_ok (cipher_of ex_xts clone_b) /\ delivers a_server a_io b_data /\
  init_metadata (setup_of ex_xts b_world clone_b) SetupProps.works 18 6 NAbsent = (b_seen, Ok tt) /\
  w_file b_world [5%N] = Some (content_of (hd NAbsent b_seen)) /\
  sector_count (l_bdev a_l) = 128 /\ length (file_of b_world (c_data clone_b)) / 512 = 192 /\
  life ex_xts clone_b (fill 0) b_world [] b_world /\ launch b_world ex_xts clone_b (fill 0) = Ok b_l /\
  (exists fin, at_work ex_xts b_world b_l GuestProps.ex_tr fin /\ fin 1 = Some (fill 7) /\ fin 2 = Some (fill 102) /\
     fin 64 = Some (data_sector ex_xts a_world clone_a 64)) /\
  used_by (sector_count (l_bdev b_l)) GuestProps.ex_tr GuestProps.ex_gtr /\
  exists K, joined ([] ++ [GuestProps.ex_gtr]) (GuestProps.ex_gtr ++ map (renumber K) []).
Proof.
  split; [exact I|]. split; [exact I|]. split; [apply ex_xts_ok|].
  split. { intros p a r E. cbn [clone_a c_source] in E. injection E as <- _ _. split; discriminate. }
  split; [exact a_launched|]. split; [exact a_ready|]. split; [exact a_whole|]. split; [constructor|]. split; [exact a_parts|]. split; [exact a_serves|].
  split; [exact a_reads|]. split.
  { split; [reflexivity|]. split; [discriminate|]. split; [intros p a r E; discriminate E|]. split; [intros E; discriminate E|intros id E; discriminate E]. }
  split. { intros x. cbn [b_world b_source w_source]. unfold b_data. destruct (Nat.ltb_spec x 64); [apply repeat_length|].
    destruct (Nat.ltb_spec x 128); [|apply repeat_length]. apply data_length; [apply ex_xts_ok|].
    assert (X : length (file_of a_world (c_data clone_a)) / 512 = 128) by (vm_compute; reflexivity). now rewrite X. }
  split; [exact I|]. split; [exact a_delivers|]. split.
  { change (setup_of ex_xts b_world clone_b) with (setup_of ex_xts b_world0 clone_b).
    assert (E : snd (init_metadata (setup_of ex_xts b_world0 clone_b) SetupProps.works 18 6 NAbsent) = Ok tt) by (vm_compute; reflexivity).
    unfold b_seen. rewrite <- E. now destruct (init_metadata _ _ _ _ _). }
  split; [reflexivity|]. split; [vm_compute; reflexivity|]. split; [vm_compute; reflexivity|]. split; [constructor|]. split; [exact b_launched|]. split; [exact b_works|].
  split.
  { assert (X : sector_count (l_bdev b_l) = 192) by (vm_compute; reflexivity). rewrite X.
    destruct GuestProps.C78_nonvacuous as (gs & G). apply (more_sectors _ _ _ _ _ _ 192) in G; [|lia]. exact (by_guest 192 _ _ _ _ _ _ _ _ _ _ G). }
  exists 20. refine (j_cons _ [] [] 20 _ j_nil). intros n q id r H. cbn [GuestProps.ex_gtr In] in H.
  repeat (destruct H as [H|H]; [try discriminate H; injection H as <- _ _ _; lia|]). destruct H.
Qed.

(** A device without metadata: one encrypted stripe. *)
Definition plain_config : config :=
  mk_config p_data None false None IoUring 4 false (Some [7%N]) (fun _ => Some ex_key).
Definition plain_size : nat := N.to_nat (2048 * 512).
Definition plain_world : world := mk_world (fun _ => Some (repeat 3%N plain_size)) (fun _ => true) SrcNone.
Definition plain_l : launched := the_launched (launch plain_world ex_xts plain_config (fill 0)).
Definition plain_server : RemoteModel.session := RemoteModel.mk_session (current_metadata 11 [7%N]) false.
Definition plain_io : RemoteModel.io :=
  RemoteModel.mk_io (fun _ _ _ => Some (stripe_at (data_sector ex_xts plain_world plain_config) (N.to_nat (2 ^ 11)) 0)) (fun _ _ => None).

Lemma plain_count : length (file_of plain_world p_data) / 512 = N.to_nat 2048.
Proof.
  change (file_of plain_world p_data) with (repeat 3%N plain_size). rewrite repeat_length. unfold plain_size.
  rewrite N2Nat.inj_mul. change (N.to_nat 512) with 512. apply Nat.div_mul. discriminate.
Qed.

Definition is_plain (r : res launched) : bool := match r with Ok l => match l_lazy l with Some _ => false | None => true end | _ => false end.
Lemma plainly : forall r, is_plain r = true -> r = Ok (the_launched r) /\ l_lazy (the_launched r) = None.
Proof. intros [l| |] H; cbn in *; try discriminate. destruct (l_lazy l) as [(k & h)|]; [discriminate|auto]. Qed.
Lemma plain_runs : launch plain_world ex_xts plain_config (fill 0) = Ok plain_l /\ l_lazy plain_l = None.
Proof. apply plainly. vm_compute. reflexivity. Qed.
Lemma plain_serves : stripe_server plain_world ex_xts plain_config = Ok plain_server.
Proof. vm_compute. reflexivity. Qed.

Example C89_plain_nonvacuous :
  source_matches plain_world plain_config /\ whole_sectors plain_world /\ cipher_ok (cipher_of ex_xts plain_config) /\ image_apart plain_config /\
  launch plain_world ex_xts plain_config (fill 0) = Ok plain_l /\ l_lazy plain_l = None /\ in_whole_stripes plain_l /\
  stripe_server plain_world ex_xts plain_config = Ok plain_server /\ reads_device ex_xts plain_world plain_config plain_server plain_io.
Proof.
  split; [exact I|]. split; [exact I|]. split; [apply ex_xts_ok|]. split; [intros p a r E; discriminate E|].
  destruct plain_runs as (L & El). split; [exact L|]. split; [exact El|]. split.
  { split; [intros k h E; rewrite El in E; discriminate E|]. intros _. rewrite (size_of _ _ _ _ _ L). change (c_data plain_config) with p_data.
    rewrite plain_count. apply Nat.mod_same. intros E. apply (f_equal N.of_nat) in E. rewrite N2Nat.id in E. discriminate E. }
  split; [exact plain_serves|]. intros st Hst. cbn in Hst. assert (st = 0) by lia. subst st. split; [|intros _ H; discriminate H].
  reflexivity.
Qed.

Print Assumptions C89_server_starts.
Print Assumptions C89_server_has_the_device.
Print Assumptions C89_clone_is_the_disk.
