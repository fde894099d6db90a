(** Proofs about stopping a backend and starting it again on the files it left. *)
From Coq Require Import List Arith NArith ZArith Bool Lia ZifyBool ZifyNat ZifyN.
Import ListNotations.
From Verif Require Import Base BaseFacts DiskSpec TraceSpec TraceFacts MetadataModel MetadataSpec LazyState LazyModel LazySpec CryptModel CryptSpec SetupModel SetupSpec
  LayerSpec LayerModel MetaLayerModel StackModel StackSpec StackProofs RestartSpec RestartFacts.
From Verif Require MetadataProofs MetadataProofs2 MetadataProps LazyInv LazyRun LazySim LazyProofs LayerProofs LayerProps LayerIds MetaLayerProofs CryptOpenProps SetupProofs SetupProps OfflineProofs.
Local Open Scope nat_scope.
Ltac Zify.zify_post_hook ::= Z.div_mod_to_equations.

(** ** The metadata *)

Lemma nth_front : forall (a b : list byte) p, firstn 512 a = firstn 512 b -> p < 512 -> nth p a 0%N = nth p b 0%N.
Proof.
  intros a b p E H. rewrite <- (MetadataProofs.nth_firstn _ 512 p 0%N), <- (MetadataProofs.nth_firstn b 512 p 0%N) by exact H. now rewrite E.
Qed.

Lemma front_bytes : forall a b p n, firstn 512 a = firstn 512 b -> p + n <= 512 -> bytes_at a p n = bytes_at b p n.
Proof.
  intros a b p n E H. unfold bytes_at. apply map_ext_in. intros i Hi. apply in_seq in Hi. apply nth_front; [exact E|lia].
Qed.

Lemma image_kept : forall buf buf' shift hs hs', bytes_ok buf -> bytes_ok buf' ->
  from_bytes buf = Ok (current_metadata shift hs) -> length buf' = length buf -> firstn 512 buf' = firstn 512 buf ->
  length hs' = length hs ->
  (forall i, i < length hs ->
     flusher_sector hs' i = Ok (firstn 512 (skipn (512 * (1 + i / 508)) buf')) \/
     (firstn 512 (skipn (512 * (1 + i / 508)) buf') = firstn 512 (skipn (512 * (1 + i / 508)) buf) /\ nth i hs' 0%N = nth i hs 0%N)) ->
  from_bytes buf' = Ok (current_metadata shift hs').
Proof.
  intros buf buf' shift hs hs' B B' H L F Lh G.
  apply (MetadataProps.C02_load_accepts_exactly_valid _ _ B) in H as (sh & hd & Vi & E).
  assert (sh = shift) by (injection E; auto). assert (hd = hs) by (injection E; auto). subst sh hd. clear E.
  apply (MetadataProps.C02_load_accepts_exactly_valid _ _ B'). exists shift, hs'. split; [|reflexivity].
  destruct Vi as [V1 V2 V3 V4 V5 V6 V7 V8 V9 V10].
  assert (Se : forall i, i < length hs ->
    MetadataProofs.sector_at buf' (1 + i / 508) = MetadataProofs.sector_image (MetadataProofs.chunk hs' (i / 508)) \/
    (MetadataProofs.sector_at buf' (1 + i / 508) = MetadataProofs.sector_at buf (1 + i / 508) /\ nth i hs' 0%N = nth i hs 0%N)).
  { intros i Hi. specialize (G i Hi). unfold MetadataProofs.sector_at, SECTOR_SIZE. rewrite (Nat.mul_comm (1 + i / 508)).
    destruct G as [G|G]; [left|right; exact G]. rewrite MetadataProofs.flusher_sector_ok in G by lia. apply Ok_inj in G. now rewrite G. }
  assert (Sl : forall i, i < length hs -> S (1 + i / 508) * 512 <= length buf').
  { intros i Hi. pose proof (V8 i Hi) as X. unfold header_pos in X. rewrite L. clear - X V2. lia. }
  constructor; rewrite ?Lh, ?L; auto.
  - rewrite <- V3. apply front_bytes; [exact F|lia].
  - rewrite <- V4. apply front_bytes; [exact F|lia].
  - rewrite <- V5. apply nth_front; [exact F|lia].
  - rewrite <- V7. unfold u32_at. rewrite !(nth_front _ _ _ F) by lia. reflexivity.
  - intros s [->|(i & Hi & ->)].
    + specialize (V9 0 (or_introl eq_refl)). rewrite <- (front_bytes buf' buf (512 * 0) 508 F) in V9 by lia. rewrite <- V9.
      unfold u32_at. rewrite !(nth_front _ _ _ F) by lia. reflexivity.
    + apply MetadataProofs2.crc_ok_iff; [exact B'|exact (Sl i Hi)|]. destruct (Se i Hi) as [E|(E & _)]; rewrite E.
      2:{ apply MetadataProofs2.crc_ok_iff; [exact B|rewrite <- L; exact (Sl i Hi)|]. apply V9. right. now exists i. }
      apply MetadataProofs.crc_ok_sector_image, MetadataProofs.chunk_length.
  - intros i Hi.
    assert (Rd : forall b, nth (i mod 508) (MetadataProofs.sector_at b (1 + i / 508)) 0%N = nth (header_pos i) b 0%N).
    { intros b. unfold MetadataProofs.sector_at. rewrite MetadataProofs.nth_firstn by (unfold SECTOR_SIZE; lia). rewrite MetadataProofs.nth_skipn.
      unfold header_pos, SECTOR_SIZE. f_equal. lia. }
    destruct (Se i Hi) as [E|(E & En)]; [|now rewrite En, (V10 i Hi), <- !Rd, E].
    assert (X := f_equal (fun l => nth (i mod 508) l 0%N) E). cbv beta in X. rewrite Rd in X.
    rewrite MetadataProofs.nth_sector_image in X; [|apply MetadataProofs.chunk_length|lia].
    rewrite MetadataProofs.nth_chunk in X by lia. replace (i / 508 * 508 + i mod 508) with i in X by lia. now rewrite X.
Qed.

(** ** The devices are the same *)

Section R.
Variables w w' : world.
Variable xts : list byte -> list byte -> (list byte -> list byte -> list byte) * (list byte -> list byte -> list byte).
Variable c : config.
Hypothesis U : unchanged_but c w w'.

Lemma same_engine : forall e p q ro di th d, create_io_engine_device w e p q ro di th = Ok d -> create_io_engine_device w' e p q ro di th = Ok d.
Proof.
  intros e p q ro di th d H. destruct U as (_ & _ & _ & F). unfold create_io_engine_device in *.
  destruct (w_file w p) as [f|] eqn:E.
  - destruct (F p f E) as (f' & -> & ->). exact H.
  - destruct e; [|discriminate]. destruct (negb _); discriminate.
Qed.

Lemma same_block : forall p ro d, build_block_device w p c ro = Ok d -> build_block_device w' p c ro = Ok d.
Proof.
  intros p ro d H. unfold build_block_device in *. apply bind_ok in H as (d0 & H & K). rewrite (same_engine _ _ _ _ _ _ _ H). exact K.
Qed.

Lemma same_raw : forall i, build_raw_image_device w c = Ok i -> build_raw_image_device w' c = Ok i.
Proof.
  intros i H. unfold build_raw_image_device in *. destruct (c_source c) as [s|]; [|exact H]. destruct (raw_image_path s) as [p|]; [|exact H].
  apply bind_ok in H as (d & H & K). rewrite (same_engine _ _ _ _ _ _ _ H). exact K.
Qed.

Lemma same_source : forall ssc b r, build_stripe_source w c ssc false = Ok r ->
  exists r', build_stripe_source w' c ssc b = Ok r' /\ if b then fst (snd r') = 0 else r' = r.
Proof.
  intros ssc b r H. destruct U as (_ & _ & S & _). unfold build_stripe_source in *. destruct b; [eexists; split; [reflexivity|]; reflexivity|].
  rewrite S. destruct (c_source c) as [[p a cr|a|a]|] eqn:E; try (exists r; split; [exact H|reflexivity]);
    apply bind_ok in H as (i & I & H); rewrite (same_raw i I); exists r; split; [exact H|reflexivity| |]; auto.
Qed.

Lemma same_delivered : image_apart c -> c_source c <> None -> forall t x, delivered w' xts c t x = delivered w xts c t x.
Proof.
  intros A Hs t x. destruct U as (F & _ & S & _). unfold delivered. destruct (c_source c) as [[p a cr|a|a]|] eqn:E; [|now rewrite S|now rewrite S|congruence].
  destruct (A p a cr E) as (A1 & A2). unfold sector_at, file_of. now rewrite (F p A1 A2).
Qed.

Lemma same_stripes : by_stripes w' c = by_stripes w c.
Proof. destruct U as (_ & _ & S & _). unfold by_stripes. now rewrite S. Qed.

(** ** The second start *)

Lemma bg_parts : forall v d t me sn fe au m blank,
  build_bgworker v xts c d (mk_bgworker t me sn fe au m) blank =
  let! s := build_stripe_source v c sn fe in
  if length (md_headers m) <? div_ceil (fst (snd s)) sn then Err 50
  else if sector_count t <? fst (snd s) then Err 51
  else match d with
       | DLazy base image track =>
         Ok (fst s, (mk_cfg sn (length (md_headers m)) STRIPE_HEADERS_PER_SECTOR (sector_count t) (fst (snd s))
               (by_stripes v c) (delivered v xts c t) blank track (match image with Some _ => true | None => false end) au,
             fun st => nth st (md_headers m) 0%N))
       | _ => Err 64
       end.
Proof. reflexivity. Qed.

Lemma relaunch : forall blank l, image_apart c -> launch w xts c blank = Ok l ->
  (forall p m, c_metadata c = Some p -> load_image (cipher_of xts c) (file_of w p) = Ok m ->
     exists m', load_image (cipher_of xts c) (file_of w' p) = Ok m' /\ md_shift m' = md_shift m /\ length (md_headers m') = length (md_headers m) /\
       (has_fetched_all_stripes m = true -> has_fetched_all_stripes m' = true)) ->
  exists l', launch w' xts c blank = Ok l' /\ l_bdev l' = l_bdev l /\
    match c_metadata c with
    | None => l_lazy l = None /\ l_lazy l' = None
    | Some p => exists k h k' h' m', l_lazy l = Some (k, h) /\ l_lazy l' = Some (k', h') /\
        load_image (cipher_of xts c) (file_of w' p) = Ok m' /\ (forall st, h' st = nth st (md_headers m') 0%N) /\
        ssc k' = ssc k /\ nst k' = nst k /\ hps k' = hps k /\ target k' = target k /\
        full_stripes k' = full_stripes k /\ has_image k' = has_image k /\
        src k' = (if has_fetched_all_stripes m' then 0 else src k) /\
        (c_source c <> None -> forall x, image k' x = image k x) /\
        (c_source c = None -> src k = 0 /\ full_stripes k = false)
    end.
Proof.
  intros blank l A H Ld. unfold launch in *. apply bind_ok in H as ((d & kw) & B & H). unfold build in *.
  destruct U as (_ & Us & _ & _). rewrite Us. destruct (negb (w_statfs w (c_data c))); [discriminate|].
  apply bind_ok in B as (data & Bd & B). rewrite (same_block _ _ _ Bd). cbn [bindr]. destruct (c_metadata c) as [p|] eqn:Hp.
  2:{ apply Ok_inj in B. apply pair_equal_spec in B as (<- & <-). cbn [fst snd] in H. apply Ok_inj in H. subst l. cbn [bindr fst snd].
      eexists. split; [reflexivity|]. cbn. auto. }
  apply bind_ok in B as (meta & Bm & B). rewrite (same_block _ _ _ Bm). cbn [bindr]. unfold build_with_bgworker in *.
  apply bind_ok in B as (m & Lm & B). apply bind_ok in B as (ld & Bl & B). apply Ok_inj in B. apply pair_equal_spec in B as (<- & <-). cbn [fst snd] in H.
  pose proof (same_block _ _ _ Bm) as Bm'. pose proof Bm as Dm. apply (block_ok w xts) in Dm. apply (block_ok w' xts) in Bm'.
  rewrite (device_load w xts _ _ _ _ Dm) in Lm. destruct (Ld p m eq_refl Lm) as (m' & Lm' & Sh & Ln & Fa).
  rewrite (device_load w' xts _ _ _ _ Bm'), Lm'. cbn [bindr].
  assert (Bl' : build_bdev_lazy w' data c = Ok ld).
  { unfold build_bdev_lazy in *. apply bind_ok in Bl as (i & I & E). destruct (match c_source c with None => true | Some s => source_copy_on_read s end).
    - apply Ok_inj in I. subst i. exact E.
    - rewrite (same_raw i I). exact E. }
  rewrite Bl'. cbn [bindr fst snd].
  apply bind_ok in H as (r & Rb & H). apply Ok_inj in H. subst l. cbn [l_bdev l_lazy b_target b_meta].
  rewrite bg_parts in *.
  assert (Ss : stripe_sector_count m' = stripe_sector_count m) by (unfold stripe_sector_count; now rewrite Sh).
  rewrite Ss, Ln. apply bind_ok in Rb as (s & Sb & Rb).
  set (n := length (md_headers m)) in *. set (sn := N.to_nat (stripe_sector_count m)) in *.
  destruct (Nat.ltb_spec n (div_ceil (fst (snd s)) sn)) as [|C1]; [discriminate Rb|].
  destruct (Nat.ltb_spec (sector_count data) (fst (snd s))) as [|C2]; [discriminate Rb|].
  assert (Nsrc : c_source c = None -> fst (snd s) = 0).
  { intros E. unfold build_stripe_source in Sb. destruct (has_fetched_all_stripes m); [apply Ok_inj in Sb; now subst s|]. rewrite E in Sb.
    unfold build_raw_image_device in Sb. rewrite E in Sb. cbn in Sb. apply Ok_inj in Sb. now subst s. }
  assert (Sb' : exists s', build_stripe_source w' c sn (has_fetched_all_stripes m') = Ok s' /\
    fst (snd s') = if has_fetched_all_stripes m' then 0 else fst (snd s)).
  { destruct (has_fetched_all_stripes m) eqn:E1.
    - rewrite (Fa eq_refl). eexists. split; [reflexivity|]. reflexivity.
    - destruct (same_source sn (has_fetched_all_stripes m') s Sb) as (s' & X & Y). exists s'. split; [exact X|].
      destruct (has_fetched_all_stripes m'); [exact Y|now subst s']. }
  destruct Sb' as (s' & Sb' & Es'). rewrite Sb'. cbn [bindr].
  assert (Ds : div_ceil 0 sn = 0) by (unfold div_ceil; destruct sn as [|sn']; [reflexivity|apply Nat.div_small; lia]).
  assert (Le : fst (snd s') <= fst (snd s)) by (rewrite Es'; destruct (has_fetched_all_stripes m'); lia).
  replace (n <? div_ceil (fst (snd s')) sn) with false.
  2:{ symmetry. apply Nat.ltb_ge. rewrite Es'. destruct (has_fetched_all_stripes m'); [rewrite Ds; lia|exact C1]. }
  replace (sector_count data <? fst (snd s')) with false by (symmetry; apply Nat.ltb_ge; lia).
  unfold build_bdev_lazy in Bl. apply bind_ok in Bl as (i & I & El). apply Ok_inj in El. subst ld. cbn [bindr snd]. apply Ok_inj in Rb. subst r. cbn [snd].
  eexists. split; [reflexivity|]. cbn [l_bdev l_lazy]. split; [reflexivity|]. eexists _, _, _, _, m'.
  split; [reflexivity|]. split; [reflexivity|]. split; [reflexivity|]. split; [reflexivity|].
  cbn [ssc nst hps target src full_stripes image has_image]. repeat split; auto.
  - apply same_stripes.
  - intros Hs x. exact (same_delivered A Hs data x).
  - unfold by_stripes. now rewrite H.
Qed.
End R.

(** ** The lazy device after a crash *)

Section Lazy.
Context {V : Type}.
Variable k : cfg V.
Variable base : nat -> V.
Variable h : nat -> N.
Hypothesis WC : well_configured k h.

Lemma orun_app : forall es es2 s s2 g b, orun k s (es ++ es2) = Some (s2, g, b) ->
  exists s1 g1 b1 g2 b2, orun k s es = Some (s1, g1, b1) /\ orun k s1 es2 = Some (s2, g2, b2) /\ g = g1 ++ g2 /\ b = b1 ++ b2.
Proof.
  induction es as [|e es IH]; intros es2 s s2 g b H; cbn [app orun] in *.
  - exists s, [], [], g, b. auto.
  - destruct (ostep k s e) as [[[s1 t1] b1]|]; [|discriminate]. destruct (orun k s1 (es ++ es2)) as [[[s3 t3] b3]|] eqn:R; [|discriminate].
    injection H as <- <- <-. destruct (IH _ _ _ _ _ R) as (s4 & g1 & b2 & g2 & b4 & R1 & R2 & -> & ->). rewrite R1.
    exists s4, (t1 ++ g1), (b1 ++ b2), g2, b4. rewrite !app_assoc. auto.
Qed.

(** LayerProofs.open_is_closed, with the marks of written stripes. *)
Lemma open_is_closed_marks : forall oes so g b d, (forall e, In e oes -> LayerProofs.event_fits k e) ->
  orun k (oinit k h) oes = Some (so, g, b) -> disk_behaviour (target k) base b d ->
  exists es, (forall x, bh (reached k base h es) x = d_hist d x) /\ shf (reached k base h es) = shf so /\
    mh (reached k base h es) = mh so /\ shw (reached k base h es) = shw so.
Proof.
  intros oes so g b d Fe Hs (des & Hr).
  destruct (LayerProofs.sim_run_open k base h WC _ _ _ _ _ _ _ _ _ _ _ _ _ (LayerProofs.related_init k base h) Fe Hs Hr) as (es & O & B & D & F & R & H).
  exists es. cbn [app] in *. rewrite (LayerProofs.r_state _ _ _ _ _ _ _ _ _ _ _ R).
  split; [|repeat split; reflexivity]. intros x. exact (LayerProofs.lk_hist _ _ _ _ _ _ (LayerProofs.r_link _ _ _ _ _ _ _ _ _ _ _ R) x).
Qed.

(** What the metadata holds after a crash, and which stripes are then released; and with
    written-tracking, nothing was written to stripes that are not marked. *)
Lemma after_crash : forall oes pm so g b d, LayerProps.requests_fit k oes ->
  orun k (oinit k h) (oes ++ [OCrash pm]) = Some (so, g, b) -> disk_behaviour (target k) base b d ->
  let hd := loaded_headers k (mh so) in
  stopped g /\
  (forall st, released (shf so st) = negb ((st <? nst k) && has_flag FLAG_HAS_SOURCE (hd st) && negb (has_flag FLAG_FETCHED (hd st)))) /\
  (forall st, st < nst k -> has_flag FLAG_HAS_SOURCE (hd st) = has_flag FLAG_HAS_SOURCE (h st)) /\
  (forall st, st < nst k -> has_flag FLAG_FETCHED (hd st) = true -> has_flag FLAG_HAS_SOURCE (hd st) = true) /\
  (forall st, st < nst k -> has_flag FLAG_HAS_SOURCE (h st) = true -> has_flag FLAG_FETCHED (h st) = true -> has_flag FLAG_FETCHED (hd st) = true) /\
  (forall x, x < target k -> x / ssc k < nst k -> has_flag FLAG_HAS_SOURCE (hd (x / ssc k)) = true -> has_flag FLAG_FETCHED (hd (x / ssc k)) = false ->
     x < src k \/ (full_stripes k = true /\ has_image k = false)) /\
  (track k = true -> forall x, x / ssc k < nst k -> has_flag FLAG_WRITTEN (hd (x / ssc k)) = false -> has_flag FLAG_HAS_SOURCE (h (x / ssc k)) = false ->
     cur (d_hist d x) = Some (base x) /\ has_flag FLAG_WRITTEN (h (x / ssc k)) = false).
Proof.
  intros oes pm so g b d Fe R D hd. assert (Fe' : LayerProps.requests_fit k (oes ++ [OCrash pm])).
  { intros q id r X. apply in_app_or in X as [X|[X|[]]]; [exact (Fe _ _ _ X)|discriminate]. }
  destruct (open_is_closed_marks _ so g b d (LayerProps.fits k _ Fe') R D) as (es & Eb & Es & Em & Ew).
  destruct (orun_app _ _ _ _ _ _ R) as (s1 & g1 & b1 & g2 & b2 & _ & R2 & -> & _). cbn [orun ostep] in R2. injection R2 as R2 <- <-.
  split; [now exists g1|].
  pose proof (LazyRun.k_inv _ _ _ (LazyProofs.ok_reached k base h WC es)) as HI.
  assert (Sh : forall st, shf so st = if st <? nst k then initial_fetch_state (hd st) else NoSource).
  { intros st. unfold hd. rewrite <- R2. reflexivity. }
  assert (Rl : forall st, released (shf so st) = negb ((st <? nst k) && has_flag FLAG_HAS_SOURCE (hd st) && negb (has_flag FLAG_FETCHED (hd st)))).
  { intros st. rewrite Sh. destruct (st <? nst k); [|reflexivity]. unfold initial_fetch_state. cbn [andb].
    destruct (has_flag FLAG_HAS_SOURCE (hd st)), (has_flag FLAG_FETCHED (hd st)); reflexivity. }
  split; [exact Rl|].
  assert (Hd : forall st, exists e, In e (mh (reached k base h es) (group_of k st)) /\ hd st = snd e st).
  { intros st. unfold hd. rewrite <- Em. apply LazySim.loaded_in. exact (LazyInv.i_M_nonempty _ _ _ HI _). }
  assert (Hs : forall st, st < nst k -> has_flag FLAG_HAS_SOURCE (hd st) = has_flag FLAG_HAS_SOURCE (h st)).
  { intros st Hst. destruct (Hd st) as (e & Ie & ->). exact (proj2 (LazyInv.i_M_src _ _ _ HI st Hst) e Ie). }
  split; [exact Hs|]. split; [|split; [|split]].
  - intros st Hst Hf. rewrite (Hs st Hst). destruct (Hd st) as (e & Ie & E). rewrite E in Hf. apply (LazyInv.i_M_safe _ _ _ HI st Hst). eauto.
  - intros st Hst H1 H2.
    pose proof (LazyRun.mo_rel _ _ (LazyProofs.mono_reached k base h WC [] es) st) as M. cbn [app] in M. rewrite Es, Rl in M.
    assert (X : released (shf (reached k base h []) st) = true).
    { unfold reached, init, boot. cbn [run fst]. cbv zeta. cbn [shf]. destruct (st <? nst k); [|reflexivity].
      unfold loaded_headers. cbn [snd]. unfold initial_fetch_state. rewrite H1, H2. reflexivity. }
    specialize (M X). rewrite (Hs st Hst), H1 in M. replace (st <? nst k) with true in M by (symmetry; now apply Nat.ltb_lt).
    cbn [andb] in M. destruct (has_flag FLAG_FETCHED (hd st)); [reflexivity|discriminate M].
  - intros x Hx Hst H1 H2. apply (LazyInv.i_cover _ _ _ HI x Hx Hst).
    + unfold LazyProofs.hs. now rewrite <- (Hs _ Hst).
    + rewrite Es, Rl, H1, H2. replace (x / ssc k <? nst k) with true by (symmetry; now apply Nat.ltb_lt). reflexivity.
  - intros Ht x Hst Hw Hso.
    assert (Sw : shw (reached k base h es) (x / ssc k) = false).
    { assert (Shw : forall st, shw so st = (st <? nst k) && has_flag FLAG_WRITTEN (hd st)) by (intros st; unfold hd; rewrite <- R2; reflexivity).
      rewrite Ew, Shw, Hw. apply andb_false_r. }
    split.
    + rewrite <- Eb. pose proof (OfflineProofs.untouched k base h WC es x Ht Hst Sw Hso) as X. pose proof (OfflineProofs.bh_nonempty k base h es x) as Ne.
      destruct (bh (reached k base h es) x) as [|e r]; [congruence|]. cbn [cur]. rewrite (X (snd e)); [reflexivity|now left].
    + destruct (has_flag FLAG_WRITTEN (h (x / ssc k))) eqn:E; [|reflexivity]. exfalso.
      assert (X : shw (reached k base h []) (x / ssc k) = true).
      { unfold reached, init, boot. cbn [run fst]. cbv zeta. cbn [shw]. replace (x / ssc k <? nst k) with true by (symmetry; now apply Nat.ltb_lt).
        unfold loaded_headers. cbn [snd]. exact E. }
      pose proof (LazyRun.mo_shw _ _ (LazyProofs.mono_reached k base h WC [] es) _ X) as Y. cbn [app] in Y. congruence.
Qed.
End Lazy.

(** ** What is left is a device again *)

Lemma decrypt_length : forall k f buf, cipher_ok k -> length f mod 512 = 0 -> decrypt k f (length f / 512) = Ok buf -> length buf = length f.
Proof.
  intros k f buf K L D. destruct (SetupProofs.decrypt_sectors k f (length f / 512) K ltac:(lia)) as (b & E & H & _). rewrite E in D. apply Ok_inj in D. now subst b.
Qed.

(** Sector [x] of the file at [p], decrypted if it is encrypted. *)
Definition text_sector (xts : list byte -> list byte -> (list byte -> list byte -> list byte) * (list byte -> list byte -> list byte))
  (w : world) (c : config) (p : path) (x : nat) : sector :=
  match cipher_of xts c with
  | None => sector_at w p x
  | Some (_, dec) => on_sector dec x (sector_at w p x)
  end.

Lemma serves_path : forall w xts c p ro d g fin, is_device w c p ro d -> cipher_ok (cipher_of xts c) ->
  serves xts w d g fin -> respects (sector_count d) (text_sector xts w c p) g ->
  exists dd, disk_behaviour (sector_count d) (text_sector xts w c p) g dd /\ forall x, cur (d_hist dd x) = fin x.
Proof.
  intros w xts c p ro d g fin D K S R. apply (device_cipher w xts) in D as (o & n & (P & _) & Ed & En & _). subst d.
  unfold text_sector, cipher_of in *. destruct (keys c) as [[k1 k2]|].
  - inversion S as [| |k1' k2' base es s g' b fin' enc dec Kr Kb Sb]; subst. cbn [sector_count] in *.
    cbn [cipher_ok] in K. destruct (serves_file _ _ _ _ _ _ Sb) as (d & Dd & E). subst enc dec. destruct (xts k1 k2) as [e dc]. cbn [fst snd] in *.
    destruct (CryptOpenProps.C82_encrypted_over_any_disk _ (on_sector e) (on_sector dc) n (sector_at w (o_path o)) es s g b d
      (on_sector_inv _ _ K) Kr Kb R Dd) as (_ & d' & D' & E').
    exists d'. split; [exact D'|]. intros x. rewrite E', E. reflexivity.
  - cbn [sector_count] in *. destruct (serves_file _ _ _ _ _ _ S) as (d & Dd & E). rewrite P in Dd. eauto.
Qed.

Lemma text_of_buf : forall w xts c p f buf x, w_file w p = Some f -> cipher_ok (cipher_of xts c) -> length f mod 512 = 0 ->
  decrypt (cipher_of xts c) f (length f / 512) = Ok buf -> x < length f / 512 ->
  text_sector xts w c p x = firstn 512 (skipn (512 * x) buf).
Proof.
  intros w xts c p f buf x F K L D Hx. destruct (SetupProofs.decrypt_sectors _ f (length f / 512) K ltac:(lia)) as (b & E & _ & H).
  rewrite D in E. apply Ok_inj in E. subst b. specialize (H x Hx). unfold CryptSpec.sector_of in H. rewrite H.
  unfold text_sector, seen_sector. pose proof (sector_at_length w xts p x) as Ls. unfold file_of in Ls. rewrite F in Ls. specialize (Ls Hx).
  unfold on_sector. rewrite Ls. unfold sector_at, file_of, CryptSpec.sector_of. rewrite F. destruct (cipher_of xts c) as [[e d]|]; reflexivity.
Qed.

Lemma respects_stopped : forall {V} size (contents : nat -> V) t, respects size contents t -> respects size contents (t ++ [TCrash]).
Proof.
  intros V size contents t H t1 n q id r t2 E. apply app_eq_app in E as (l & [[E1 E2]|[E1 E2]]).
  - destruct l as [|i l]; [discriminate E2|]. cbn in E2. injection E2 as <- E2. exact (H t1 n q id r l E1).
  - destruct l as [|i l]; [discriminate E2|]. cbn in E2. injection E2 as E2 E3. destruct l; discriminate.
Qed.

Lemma fits_back : forall {V} (k : cfg V) oes, (forall e, In e oes -> LayerProofs.event_fits k e) -> LayerProps.requests_fit k oes.
Proof. intros V k oes H q id r X. exact (H _ X). Qed.

(** The lazy device and the metadata device at work, until a crash. *)
Lemma metadata_left : forall w xts c p data meta m k h pes s g b me fb fm buf,
  is_device w c (c_data c) false data -> is_device w c p false meta -> cipher_ok (cipher_of xts c) -> c_metadata c = Some p ->
  load_image (cipher_of xts c) (file_of w p) = Ok m -> metadata_text xts w c buf ->
  well_configured k h -> target k = sector_count data -> nst k = length (md_headers m) -> hps k = STRIPE_HEADERS_PER_SECTOR ->
  LayerProps.requests_fit k (other_steps pes) -> prun k (oinit k h) pes = Some (s, g, b, me) ->
  serves xts w data (b ++ [TCrash]) fb -> serves xts w meta (me ++ [TCrash]) fm ->
  respects (target k) (initial_contents k (data_sector xts w c) h) (g ++ [TCrash]) ->
  exists oes pm so, LayerProps.requests_fit k oes /\ orun k (oinit k h) (oes ++ [OCrash pm]) = Some (so, g ++ [TCrash], b ++ [TCrash]) /\
    fm 0 = Some (firstn 512 buf) /\
    forall st, st < nst k ->
      (exists x, fm (1 + st / 508) = Some x /\ flusher_sector (map (loaded_headers k (mh so)) (seq 0 (nst k))) st = Ok x) \/
      (fm (1 + st / 508) = Some (firstn 512 (skipn (512 * (1 + st / 508)) buf)) /\ loaded_headers k (mh so) st = h st).
Proof.
  intros w xts c p data meta m k h pes s g b me fb fm buf Dd Dm K Hp Lm (p1 & f & P1 & F1 & D1 & B1) WC T Nk Hk Fi Hr Sb Sm R.
  assert (p1 = p) by congruence. subst p1.
  destruct (device_count w xts _ _ _ _ Dm) as (Lz & Ct). unfold file_of in Lz, Ct. rewrite F1 in Lz, Ct.
  assert (Fe : forall e, In e pes -> MetaLayerProofs.pevent_fits k e).
  { intros [e|n ok] He; cbn; [|exact I]. apply (LayerProps.fits k _ Fi). unfold other_steps. apply in_flat_map. exists (PStep e). split; [exact He|now left]. }
  assert (Gr : forall st, group_of k st = st / 508) by (intros st; unfold group_of; now rewrite Hk).
  assert (Lb : length buf = length f) by exact (decrypt_length _ _ _ K Lz D1).
  assert (Room : forall st, st < nst k -> 1 + group_of k st < sector_count meta).
  { intros st Hst. rewrite Gr, Ct. unfold load_image, file_of in Lm. rewrite F1 in Lm. apply bind_ok in Lm as (sn & Lo & Lm).
    destruct (negb _) in Lm; [discriminate|]. unfold SetupModel.open_device, SECTOR_SIZE in Lo. rewrite Lz in Lo. cbn [Nat.eqb negb] in Lo. apply Ok_inj in Lo. subst sn.
    apply bind_ok in Lm as (b0 & X & Lm). rewrite D1 in X. apply Ok_inj in X. subst b0.
    apply (MetadataProps.C02_load_accepts_exactly_valid _ _ B1) in Lm as (sh & hd & Vi & ->). cbn [md_headers current_metadata] in Nk. rewrite Nk in Hst.
    pose proof (vi_fits _ _ _ Vi st Hst) as X. unfold header_pos in X. rewrite Lb in X. clear - X Lz. lia. }
  (* the base device *)
  destruct (MetaLayerProofs.base_sees_layer k h pes s g b me Fe Hr) as (oes0 & so0 & O0 & F0 & _).
  assert (Rb : respects (target k) (data_sector xts w c) (b ++ [TCrash])).
  { refine (LayerProofs.respects_base k _ h WC (oes0 ++ [OCrash (fun _ => 0)]) _ (g ++ [TCrash]) _ _ _ R).
    - intros e X. apply in_app_or in X as [X|[<-|[]]]; [exact (F0 e X)|exact I].
    - refine (MetaLayerProofs.orun_trans k _ _ so0 _ _ _ _ _ _ O0 _). reflexivity. }
  pose proof Rb as Rb0. rewrite T in Rb. destruct (serves_disk w xts _ _ _ _ _ Dd K Sb Rb) as (dd & Db & _). rewrite <- T in Db.
  (* the metadata device *)
  assert (Rm : respects (sector_count meta) (text_sector xts w c p) (me ++ [TCrash])).
  { apply respects_stopped. refine (MetaLayerProofs.respects_meta k (data_sector xts w c) h WC Hk _ _ Room pes s g b me Fe Hr _).
    destruct Db as (des & Db). destruct (drun_cut _ _ _ _ _ _ Db) as (e1 & e2 & d1 & X & _). now exists d1, e1. }
  destruct (serves_path w xts _ _ _ _ _ _ Dm K Sm Rm) as (dm & Dmm & Em).
  destruct (MetaLayerProofs.meta_open_is_closed k (data_sector xts w c) h WC Hk _ _ Room pes s g b me dm dd Fe Hr Dmm Db) as (oes & pm & so & Fo & Oo & Hst & Hot).
  exists oes, pm, so. split; [exact (fits_back k oes Fo)|]. split; [exact Oo|].
  assert (N0 : 0 < length f / 512).
  { assert (X : 512 <= length buf).
    { unfold load_image, file_of in Lm. rewrite F1 in Lm. apply bind_ok in Lm as (sn & Lo & Lm).
      destruct (negb _) in Lm; [discriminate|]. unfold SetupModel.open_device, SECTOR_SIZE in Lo. rewrite Lz in Lo. cbn [Nat.eqb negb] in Lo. apply Ok_inj in Lo. subst sn.
      apply bind_ok in Lm as (b0 & X & Lm). rewrite D1 in X. apply Ok_inj in X. subst b0.
      apply (MetadataProps.C02_load_accepts_exactly_valid _ _ B1) in Lm as (sh & hd & Vi & _). exact (vi_min _ _ _ Vi). }
    rewrite Lb in X. lia. }
  split.
  - rewrite <- Em, Hot by (intros st _; discriminate). f_equal. rewrite (text_of_buf w xts c p f buf 0 F1 K Lz D1 N0). reflexivity.
  - intros st Hs. specialize (Hst st Hs). rewrite Gr in Hst. rewrite !Em in Hst. destruct Hst as [X|(X & Y)].
    + left. eexists. split; [exact X|]. unfold header_bytes. rewrite MetadataProofs.flusher_sector_ok by (rewrite map_length, seq_length; exact Hs). reflexivity.
    + right. split; [|apply Y; apply Gr]. rewrite X. f_equal. apply (text_of_buf w xts c p f buf _ F1 K Lz D1). specialize (Room st Hs). rewrite Gr, Ct in Room. exact Room.
Qed.

Lemma fetched_all_spec : forall m, has_fetched_all_stripes m = true <->
  forall st, st < length (md_headers m) ->
    has_flag FLAG_HAS_SOURCE (nth st (md_headers m) 0%N) = true -> has_flag FLAG_FETCHED (nth st (md_headers m) 0%N) = true.
Proof.
  intros m. unfold has_fetched_all_stripes. rewrite forallb_forall. unfold has_flag. split.
  - intros H st Hst E. specialize (H _ (nth_In _ 0%N Hst)). destruct (N.land _ FLAG_HAS_SOURCE =? 0)%N; [discriminate|exact H].
  - intros H x Hx. destruct (In_nth _ _ 0%N Hx) as (st & Hst & <-). specialize (H st Hst).
    destruct (N.land _ FLAG_HAS_SOURCE =? 0)%N; [reflexivity|]. apply H. reflexivity.
Qed.

Lemma comes_up : forall w w' (xts : list byte -> list byte -> (list byte -> list byte -> list byte) * (list byte -> list byte -> list byte)) c blank l g,
  source_matches w c -> cipher_ok (cipher_of xts c) -> image_apart c ->
  launch w xts c blank = Ok l -> (forall k h, l_lazy l = Some (k, h) -> well_configured k h) ->
  left_by xts w c l g w' -> respects (sector_count (l_bdev l)) (configured_contents xts w c l) g ->
  exists l' fin, launch w' xts c blank = Ok l' /\ l_bdev l' = l_bdev l /\ (forall k h, l_lazy l' = Some (k, h) -> well_configured k h) /\
    at_work xts w l g fin /\ stopped g /\
    (forall x, x < sector_count (l_bdev l) -> fin x = Some (configured_contents xts w' c l' x)) /\
    forall k h k' h', l_lazy l = Some (k, h) -> l_lazy l' = Some (k', h') ->
      ssc k' = ssc k /\ nst k' = nst k /\ target k' = target k /\
      (track k = true -> forall x, x < target k -> x / ssc k < nst k ->
         has_flag FLAG_WRITTEN (h' (x / ssc k)) = false -> has_flag FLAG_HAS_SOURCE (h' (x / ssc k)) = false ->
         data_sector xts w' c x = data_sector xts w c x /\
         has_flag FLAG_WRITTEN (h (x / ssc k)) = false /\ has_flag FLAG_HAS_SOURCE (h (x / ssc k)) = false).
Proof.
  intros w w' xts c blank l g SM K A H WC (U & Lf) R.
  pose proof H as H0. unfold launch in H0. apply bind_ok in H0 as ((d & kw) & B & H0). apply build_ok in B as (data & D & B).
  assert (Ct : length (file_of w' (c_data c)) = length (file_of w (c_data c)) /\ sector_count data = length (file_of w (c_data c)) / 512).
  { pose proof (device_count w xts _ _ _ _ D) as (_ & X). split; [|exact X]. destruct D as (o & n & f & _ & Ef & _). destruct U as (_ & _ & _ & U).
    destruct (U _ _ Ef) as (f' & Ef' & El). unfold file_of. now rewrite Ef, Ef'. }
  destruct Ct as (Ct1 & Ct2).
  destruct (c_metadata c) as [p|] eqn:Hp.
  2:{ destruct B as (-> & ->). cbn [fst snd] in H0. apply Ok_inj in H0. subst l. cbn [l_bdev l_lazy] in *.
      destruct (relaunch w w' xts c U blank _ A H) as (l' & L' & Ed & El); [intros p m X; congruence|]. rewrite Hp in El. destruct El as (_ & El).
      assert (X : exists fb, stopped g /\ serves xts w data g fb /\ holds_data xts w' c fb).
      { apply (device_cipher w xts) in D as (o & n & _ & -> & _). destruct (keys c) as [[k1 k2]|]; exact Lf. }
      destruct X as (fb & St & Sv & Hd). exists l', fb. split; [exact L'|]. split; [exact Ed|]. split; [intros k h X; congruence|]. split; [|split; [exact St|]].
      - unfold at_work. cbn [l_bdev l_lazy]. apply (device_cipher w xts) in D as (o & n & _ & -> & _). destruct (keys c) as [[k1 k2]|]; exact Sv.
      - split; [|intros k h k' h' X; discriminate X].
        intros x Hx. unfold configured_contents. rewrite El. apply Hd. cbn [l_bdev] in Hx. rewrite Ct1, <- Ct2. exact Hx. }
  destruct B as (meta & m & image & M & Lm & -> & I & ->). cbn [fst snd] in H0. apply bind_ok in H0 as (r & Rb & H0).
  apply Ok_inj in H0. subst l. unfold configured_contents in R. cbn [l_bdev l_lazy sector_count] in *.
  destruct (snd r) as [k h] eqn:Er. destruct Lf as (p1 & meta1 & pes & s0 & g0 & b0 & me & fb & fm & P1 & Bm1 & (buf & Tx) & Fe0 & Rp & -> & Sb & Hdat & Sm & Hmeta). specialize (WC k h eq_refl).
  assert (p1 = p) by congruence. subst p1. clear P1. apply (block_ok w xts) in Bm1.
  rewrite bg_parts in Rb. apply bind_ok in Rb as (s & _ & Rb).
  destruct (_ <? _) in Rb; [discriminate|]. destruct (_ <? _) in Rb; [discriminate|]. apply Ok_inj in Rb. subst r. cbn [snd] in Er.
  apply pair_equal_spec in Er as (Ek & Eh).
  assert (T : target k = sector_count data) by (now rewrite <- Ek).
  assert (Nk : nst k = length (md_headers m)) by (now rewrite <- Ek).
  assert (Hk : hps k = STRIPE_HEADERS_PER_SECTOR) by (now rewrite <- Ek).
  assert (Eh' : forall st, h st = nth st (md_headers m) 0%N) by (intros; now rewrite <- Eh). clear Ek Eh.
  rewrite <- T in R.
  rewrite (device_load w xts _ _ _ _ M) in Lm.
  destruct (metadata_left w xts c p data meta1 m k h pes s0 g0 b0 me fb fm buf D Bm1 K Hp Lm Tx WC T Nk Hk Fe0 Rp Sb Sm R) as (oes & pm & so & Fe & Ro & Fm0 & Fms).
  set (g := g0 ++ [TCrash]) in *. set (b := b0 ++ [TCrash]) in *.
  assert (Fe' : LayerProps.requests_fit k (oes ++ [OCrash pm])).
  { intros q id rq X. apply in_app_or in X as [X|[X|[]]]; [exact (Fe _ _ _ X)|discriminate]. }
  pose proof (LayerProps.C79_lazy_keeps_the_contract _ k _ h _ so g b WC Fe' Ro R) as Rb'.
  rewrite T in Rb'. destruct (serves_disk w xts _ _ _ _ _ D K Sb Rb') as (dd & Dd & E). rewrite <- T in Dd.
  destruct (after_crash k _ h WC oes pm so g b dd Fe Ro Dd) as (St & Rl & Hs & Hsafe & Hkept & Hcov & Hmark).
  (* the metadata *)
  assert (Ml : exists m', load_image (cipher_of xts c) (file_of w' p) = Ok m' /\ md_shift m' = md_shift m /\
    md_headers m' = map (loaded_headers k (mh so)) (seq 0 (nst k))).
  { destruct Tx as (p1 & f & P1 & F1 & D1 & B1). destruct Hmeta as (buf' & (p2 & f' & P2 & F2 & D2 & B2) & Ff).
    assert (p1 = p) by congruence. assert (p2 = p) by congruence. subst p1 p2.
    assert (Lf' : length f' = length f) by (destruct U as (_ & _ & _ & U); destruct (U _ _ F1) as (f2 & X & Y); congruence).
    unfold load_image, file_of in *. rewrite F1 in Lm. rewrite F2, Lf'. apply bind_ok in Lm as (sn & Lo & Lm). rewrite Lo. cbn [bindr].
    destruct (negb _) in *; [discriminate|]. unfold SetupModel.open_device, SECTOR_SIZE in Lo. destruct (Nat.eqb_spec (length f mod 512) 0) as [Lz|]; [|discriminate].
    cbn [negb] in Lo. apply Ok_inj in Lo. subst sn. apply bind_ok in Lm as (b1 & X & Lm). rewrite D1 in X. apply Ok_inj in X. subst b1.
    pose proof (decrypt_length _ _ _ K Lz D1) as L1. assert (L2 : length buf' = length f') by (apply (decrypt_length (cipher_of xts c)); [exact K|now rewrite Lf'|exact D2]).
    rewrite <- Lf', D2. cbn [bindr].
    pose proof (proj1 (MetadataProps.C02_load_accepts_exactly_valid _ _ B1) Lm) as (sh & hd & Vi & Em). subst m. cbn [md_shift md_headers current_metadata] in *.
    exists (current_metadata sh (map (loaded_headers k (mh so)) (seq 0 (nst k)))). split; [|split; reflexivity].
    apply (image_kept buf buf' sh hd); auto.
    - congruence.
    - assert (X : fm 0 = Some (firstn 512 buf')) by (apply (Ff 0); pose proof (vi_min _ _ _ Vi); lia). rewrite Fm0 in X. now injection X.
    - now rewrite map_length, seq_length.
    - intros i Hi. pose proof (vi_fits _ _ _ Vi i Hi) as Xi. unfold header_pos in Xi.
      assert (X : fm (1 + i / 508) = Some (firstn 512 (skipn (512 * (1 + i / 508)) buf'))) by (apply Ff; clear - Xi L1 L2 Lf' Lz; lia).
      destruct (Fms i ltac:(lia)) as [(x & Y1 & Y2)|(Y1 & Y2)].
      + left. rewrite X in Y1. injection Y1 as <-. exact Y2.
      + right. rewrite X in Y1. split; [now injection Y1|]. rewrite (nth_indep _ 0%N (loaded_headers k (mh so) 0)) by (rewrite map_length, seq_length; lia).
        rewrite map_nth, seq_nth by lia. cbn [Nat.add]. now rewrite Y2, Eh'. }
  destruct Ml as (m' & Lm' & Sh & Hm').
  assert (Hn : forall st, st < nst k -> nth st (md_headers m') 0%N = loaded_headers k (mh so) st).
  { intros st Hst. rewrite Hm'. rewrite (nth_indep _ 0%N (loaded_headers k (mh so) 0)) by (rewrite map_length, seq_length; exact Hst).
    rewrite map_nth, seq_nth by exact Hst. reflexivity. }
  assert (Ln : length (md_headers m') = nst k) by (rewrite Hm', map_length; apply seq_length).
  destruct (relaunch w w' xts c U blank _ A H) as (l' & L' & Ed & El).
  { intros p0 m0 X Y. assert (p0 = p) by congruence. subst p0. assert (m0 = m) by congruence. subst m0. exists m'. split; [exact Lm'|]. split; [exact Sh|].
    split; [congruence|]. intros F. pose proof (proj1 (fetched_all_spec m) F) as F'. apply fetched_all_spec. rewrite Ln. intros st Hst. rewrite (Hn st Hst). intros Y1.
    rewrite (Hs st Hst) in Y1. apply (Hkept st Hst Y1). rewrite Eh' in *. apply F'; [now rewrite <- Nk|exact Y1]. }
  rewrite Hp in El. destruct El as (k0 & h0 & k' & h' & m2 & E0 & E' & Lm2 & Hh' & Q1 & Q2 & Q3 & Q4 & Q5 & Q6 & Q7 & Q8 & Q9).
  cbn [l_lazy] in E0. injection E0 as <- <-. assert (m2 = m') by congruence. subst m2.
  assert (Hd' : forall st, st < nst k -> h' st = loaded_headers k (mh so) st) by (intros st X; now rewrite Hh', Hn).
  assert (Cov : forall x, x < target k -> x / ssc k < nst k -> has_flag FLAG_HAS_SOURCE (h' (x / ssc k)) = true -> has_flag FLAG_FETCHED (h' (x / ssc k)) = false ->
     (x < src k \/ (full_stripes k = true /\ has_image k = false)) /\ has_fetched_all_stripes m' = false).
  { intros x X1 X2 X3 X4. pose proof X3 as X3'. pose proof X4 as X4'. rewrite (Hd' _ X2) in X3, X4. split; [exact (Hcov x X1 X2 X3 X4)|].
    destruct (has_fetched_all_stripes m') eqn:F; [|reflexivity]. pose proof (proj1 (fetched_all_spec m') F) as F'. specialize (F' (x / ssc k)).
    rewrite Ln, <- Hh' in F'. rewrite (F' X2 X3') in X4'. discriminate. }
  exists l', (fun x => if released (shf so (x / ssc k)) then fb x else Some (LazyModel.image k x)).
  split; [exact L'|]. split; [exact Ed|]. split; [|split; [|split; [exact St|]]].
  - intros k1 h1 X. rewrite E' in X. injection X as <- <-. destruct WC as [W1 W2 W3 W4 W5 W6 W7].
    constructor; rewrite ?Q1, ?Q2, ?Q3, ?Q4, ?Q5, ?Q6; auto.
    + rewrite Q7. destruct (has_fetched_all_stripes m'); lia.
    + rewrite Q7. destruct (has_fetched_all_stripes m'); [|exact W5].
      assert (Ds : div_ceil 0 (ssc k) = 0) by (unfold div_ceil; apply Nat.div_small; lia). rewrite Ds. lia.
    + intros x X1 X2 X3 X4. destruct (Cov x X1 X2 X3 X4) as (Y & F). rewrite Q7, F. exact Y.
    + intros st X. rewrite (Hd' st X). apply Hsafe. exact X.
  - unfold at_work. cbn [l_bdev l_lazy]. exists (oes ++ [OCrash pm]), so, b, fb. auto.
  - split.
    2:{ intros k1 h1 k2 h2 X1 X2. rewrite E' in X2. cbn [l_lazy] in X1. injection X1 as <- <-. injection X2 as <- <-.
        split; [exact Q1|]. split; [exact Q2|]. split; [exact Q4|]. intros Ht x Hx Hst. rewrite (Hd' _ Hst). intros Hw Hso. rewrite (Hs _ Hst) in Hso.
        destruct (Hmark Ht x Hst Hw Hso) as (Y1 & Y2). split; [|split; [exact Y2|exact Hso]].
        assert (Z : fb x = Some (data_sector xts w' c x)) by (apply Hdat; rewrite Ct1, <- Ct2, <- T; exact Hx).
        rewrite <- (E x), Y1 in Z. now injection Z. }
    intros x Hx. unfold configured_contents. rewrite E'. unfold initial_contents. cbv zeta. rewrite Q1, Q2, Rl. rewrite <- T in Hx.
    destruct (Nat.ltb_spec (x / ssc k) (nst k)) as [Hst|Hst].
    + rewrite (Hd' _ Hst). cbn [andb].
      destruct (has_flag FLAG_HAS_SOURCE (loaded_headers k (mh so) (x / ssc k)) && negb (has_flag FLAG_FETCHED (loaded_headers k (mh so) (x / ssc k)))) eqn:Un; cbn [negb].
      * f_equal. symmetry. apply Q8. intros Hc. destruct (Q9 Hc) as (Z1 & Z2). apply andb_true_iff in Un as (Un1 & Un2). apply negb_true_iff in Un2.
        destruct (Hcov x Hx Hst Un1 Un2) as [Y|(Y & _)]; [lia|congruence].
      * apply Hdat. rewrite Ct1, <- Ct2, <- T. exact Hx.
    + cbn [andb negb]. apply Hdat. rewrite Ct1, <- Ct2, <- T. exact Hx.
Qed.
