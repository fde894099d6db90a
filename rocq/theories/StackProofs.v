(** Proofs about putting the layers of a device together. *)
From Coq Require Import List Arith NArith ZArith Bool Lia ZifyBool ZifyNat ZifyN.
Import ListNotations.
From Verif Require Import Base BaseFacts DiskSpec TraceSpec MetadataModel LazyState LazyModel LazySpec CryptModel CryptSpec SetupModel SetupSpec SetupProps
  LayerSpec LayerModel SyncModel UringDiskModel UringDiskSpec UringDiskProps CryptOpenModel CryptOpenSpec CryptOpenProps StackModel StackSpec.
From Verif Require SyncSpec SyncProofs SyncProps UringDiskProofs LayerProps CryptProps.
Local Open Scope nat_scope.
Ltac Zify.zify_post_hook ::= Z.div_mod_to_equations.

Lemma bind_ok : forall {A B} (r : res A) (f : A -> res B) b, bindr r f = Ok b -> exists a, r = Ok a /\ f a = Ok b.
Proof. intros A B [a|e|] f b H; cbn in H; try discriminate. eauto. Qed.

Lemma split_halves : forall {A} (k : list A) n, n <= length k -> length (firstn n k) = n /\ length (skipn n k) = length k - n.
Proof. intros A k n H. rewrite firstn_length, skipn_length. lia. Qed.

Section S.
Variable w : world.
Variable xts : list byte -> list byte -> (list byte -> list byte -> list byte) * (list byte -> list byte -> list byte).

(** ** What is built *)

Lemma engine_ok : forall e p q ro di th d, create_io_engine_device w e p q ro di th = Ok d ->
  exists f n, w_file w p = Some f /\ length f = n * 512 /\
    d = DFile (mk_opening p e (match e with IoUring => q | Sync => 0%N end) ro di th) n.
Proof.
  intros e p q ro di th d H. unfold create_io_engine_device in H. destruct e.
  - destruct (w_file w p) as [f|]; [|destruct (negb _); discriminate].
    apply bind_ok in H as (n & H & E). apply Ok_inj in E. subst d. exists f, (N.to_nat n). split; [reflexivity|]. split; [|reflexivity].
    unfold open_uring in H. destruct (negb _); [discriminate|]. destruct (N.eqb_spec (N.of_nat (length f) mod 512) 0) as [E|]; [|discriminate].
    cbn [negb] in H. apply Ok_inj in H. subst n. lia.
  - destruct (w_file w p) as [f|]; [|discriminate]. apply bind_ok in H as (n & H & E). apply Ok_inj in E. subst d.
    exists f, n. split; [reflexivity|]. split; [|reflexivity].
    unfold SyncModel.open_device, SECTOR in H. destruct (Nat.eqb_spec (length f mod 512) 0); [|discriminate]. cbn [negb] in H.
    apply Ok_inj in H. subst n. lia.
Qed.

Lemma block_ok : forall p c ro d, build_block_device w p c ro = Ok d -> is_device w c p ro d.
Proof.
  intros p c ro d H. unfold build_block_device in H. apply bind_ok in H as (d0 & H & K).
  apply engine_ok in H as (f & n & F & L & ->). unfold is_device.
  exists (mk_opening p (c_engine c) (match c_engine c with IoUring => c_queue c | Sync => 0%N end) ro true (c_through c)), n, f.
  split. { unfold opened_as. cbn. repeat split; auto. now intros ->. }
  split; [exact F|]. split; [exact L|]. destruct (c_key c) as [id|]; [|now apply Ok_inj in K].
  destruct (c_secrets c id) as [k|]; [|discriminate]. apply bind_ok in K as ((k1 & k2) & K & E). unfold split_at in K.
  destruct (Nat.ltb_spec (length k) 32) as [|Hk]; [discriminate|]. apply Ok_inj in K.
  cbn [fst snd] in E. unfold crypt_device, ensure_32_bytes in E.
  destruct (Nat.eqb_spec (length k1) 32) as [L1|]; [|discriminate]. cbn [bindr] in E.
  destruct (Nat.eqb_spec (length k2) 32) as [L2|]; [|discriminate]. cbn [bindr] in E. apply Ok_inj in E.
  assert (K1 : firstn 32 k = k1) by exact (f_equal fst K). assert (K2 : skipn 32 k = k2) by exact (f_equal snd K).
  exists k1, k2. split; [|auto]. rewrite <- K1, <- K2. now rewrite firstn_skipn.
Qed.

Lemma image_ok : forall c i, build_raw_image_device w c = Ok i ->
  match c_source c with
  | Some (CRaw p _ _) => exists o n f, i = Some (DFile o n) /\ opened_as c p 64 true o /\ w_file w p = Some f /\ length f = n * 512
  | _ => i = None
  end.
Proof.
  intros c i H. unfold build_raw_image_device in H. destruct (c_source c) as [[p a r|a|a]|]; cbn [raw_image_path] in H; try (now apply Ok_inj in H).
  apply bind_ok in H as (d & H & E). apply Ok_inj in E. subst i. apply engine_ok in H as (f & n & F & L & ->).
  eexists _, n, f. split; [reflexivity|]. split; [|auto]. unfold opened_as. cbn. repeat split; auto. now intros ->.
Qed.

Lemma lazy_ok : forall disk c l, build_bdev_lazy w disk c = Ok l ->
  exists image, l = DLazy disk image (c_track c) /\
    match c_source c with
    | Some (CRaw p _ false) => exists o n, image = Some (DFile o n) /\ opened_as c p 64 true o
    | _ => image = None
    end.
Proof.
  intros disk c l H. unfold build_bdev_lazy in H. apply bind_ok in H as (i & H & E). apply Ok_inj in E. subst l.
  exists i. split; [reflexivity|]. destruct (c_source c) as [[p a [|]|a|a]|] eqn:Es; cbn [source_copy_on_read] in H; try (now apply Ok_inj in H).
  apply image_ok in H. rewrite Es in H. destruct H as (o & n & f & -> & O & _). eauto.
Qed.

Lemma build_ok : forall c d k, build w xts c = Ok (d, k) ->
  exists data, is_device w c (c_data c) false data /\
    match c_metadata c with
    | None => d = data /\ k = None
    | Some p => exists meta m image, is_device w c p false meta /\ load_metadata w xts meta = Ok m /\
        d = DLazy data image (c_track c) /\
        match c_source c with
        | Some (CRaw p _ false) => exists o n, image = Some (DFile o n) /\ opened_as c p 64 true o
        | _ => image = None
        end /\
        k = Some (mk_bgworker data meta (N.to_nat (stripe_sector_count m)) (has_fetched_all_stripes m)
              (match c_source c with Some s => source_autofetch s | None => false end) m)
    end.
Proof.
  intros c d k H. unfold build in H. destruct (negb _); [discriminate|]. apply bind_ok in H as (data & D & H).
  apply block_ok in D. exists data. split; [exact D|]. destruct (c_metadata c) as [p|].
  - apply bind_ok in H as (meta & M & H). apply block_ok in M. unfold build_with_bgworker in H.
    apply bind_ok in H as (m & Lm & H). apply bind_ok in H as (l & L & H). apply Ok_inj in H. injection H as <- <-.
    apply lazy_ok in L as (image & -> & I). exists meta, m, image. auto.
  - apply Ok_inj in H. injection H as <- <-. auto.
Qed.

Lemma device_openings : forall c p ro d, is_device w c p ro d -> forall o, In o (openings d) -> opened_as c p (c_queue c) ro o.
Proof.
  intros c p ro d (o0 & n & f & O & _ & _ & D) o H. destruct (c_key c) as [id|].
  - destruct D as (k1 & k2 & _ & _ & _ & ->). destruct H as [<-|[]]. exact O.
  - subst d. destruct H as [<-|[]]. exact O.
Qed.

Lemma device_count : forall c p ro d, is_device w c p ro d -> length (file_of w p) mod 512 = 0 /\ sector_count d = length (file_of w p) / 512.
Proof.
  intros c p ro d (o0 & n & f & O & F & L & D). unfold file_of. rewrite F. cbv iota beta. split; [lia|]. destruct (c_key c) as [id|].
  - destruct D as (k1 & k2 & _ & _ & _ & ->). cbn [sector_count]. lia.
  - subst d. cbn [sector_count]. lia.
Qed.

Lemma device_cipher : forall c p ro d, is_device w c p ro d -> exists o n, opened_as c p (c_queue c) ro o /\
  d = match keys c with None => DFile o n | Some (k1, k2) => DCrypt k1 k2 (DFile o n) end /\
  sector_count d = n /\ (c_key c = None <-> keys c = None).
Proof.
  intros c p ro d (o0 & n & f & O & F & L & D). exists o0, n. split; [exact O|]. unfold keys. destruct (c_key c) as [id|].
  - destruct D as (k1 & k2 & E & L1 & L2 & ->). rewrite E.
    replace (firstn 32 (k1 ++ k2)) with k1 by (rewrite <- L1, firstn_app, firstn_all, Nat.sub_diag, app_nil_r; reflexivity).
    replace (skipn 32 (k1 ++ k2)) with k2 by (rewrite <- L1, skipn_app, skipn_all, Nat.sub_diag; reflexivity).
    split; [reflexivity|]. split; [reflexivity|]. split; discriminate.
  - subst d. split; [reflexivity|]. split; [reflexivity|]. tauto.
Qed.

Lemma device_load : forall c p ro d, is_device w c p ro d -> load_metadata w xts d = load_image (cipher_of xts c) (file_of w p).
Proof.
  intros c p ro d D. apply device_cipher in D as (o & n & (P & _) & -> & _). unfold cipher_of.
  destruct (keys c) as [[k1 k2]|]; cbn [load_metadata]; now rewrite P.
Qed.

Lemma device_plain : forall c ro d, is_device w c (c_data c) ro d -> plain_sector w xts d = data_sector xts w c.
Proof.
  intros c ro d D. apply device_cipher in D as (o & n & (P & _) & -> & _). unfold data_sector, cipher_of, plain_sector.
  destruct (keys c) as [[k1 k2]|]; rewrite P; reflexivity.
Qed.

(** ** The background worker *)

Lemma source_ok : forall c ssc fetched r, source_matches w c -> build_stripe_source w c ssc fetched = Ok r ->
  build_source (source_of w c) ssc fetched = Ok (snd r) /\
  forall o, In o (match fst r with Some d => openings d | None => [] end) ->
    exists p a cr, c_source c = Some (CRaw p a cr) /\ opened_as c p 64 true o.
Proof.
  intros c ssc fetched r M H. unfold build_stripe_source in H. unfold build_source, source_of. destruct fetched.
  { apply Ok_inj in H. subst r. cbn. split; [reflexivity|intros o []]. }
  unfold source_matches in M. destruct (c_source c) as [[p a cr|a|a]|] eqn:Es.
  - apply bind_ok in H as (i & I & H). apply image_ok in I. rewrite Es in I. destruct I as (o & n & f & -> & O & F & L).
    apply Ok_inj in H. subst r. cbn [fst snd sector_count openings]. split.
    + unfold file_of. rewrite F. f_equal. f_equal. lia.
    + intros o' [<-|[]]. eauto.
  - apply bind_ok in H as (b & B & H). apply Ok_inj in H. subst r. cbn [fst snd]. split; [exact B|intros o []].
  - apply bind_ok in H as (b & B & H). apply Ok_inj in H. subst r. cbn [fst snd]. split; [exact B|intros o []].
  - apply bind_ok in H as (i & I & H). apply image_ok in I. rewrite Es in I. subst i. apply Ok_inj in H. subst r.
    cbn [fst snd]. split; [reflexivity|intros o []].
Qed.

Lemma start_of : forall c l blank p, source_matches w c -> c_metadata c = Some p -> launch w xts c blank = Ok l ->
  exists k h, l_lazy l = Some (k, h) /\ start (setup_of xts w c) blank (file_of w p) = Ok (k, h).
Proof.
  intros c l blank p SM Hp H. unfold launch in H. apply bind_ok in H as ((d & k) & B & H). apply build_ok in B as (data & D & B).
  rewrite Hp in B. destruct B as (meta & m & image & M & Lm & -> & I & ->). cbn [fst snd] in H.
  apply bind_ok in H as (r & R & H). apply Ok_inj in H. subst l. cbn [l_lazy].
  unfold build_bgworker in R. apply bind_ok in R as (s & S & R). cbn [b_ssc b_fetched b_metadata b_target b_autofetch] in *.
  apply source_ok in S as (S & _); [|exact SM]. rewrite (device_load _ _ _ _ M) in Lm. pose proof (device_count _ _ _ _ D) as (C1 & C2).
  unfold start, SetupModel.open_device, SECTOR_SIZE. cbn [su_disk su_cipher su_source su_track su_autofetch setup_of].
  rewrite C1. cbn [Nat.eqb negb bindr]. rewrite Lm. cbn [bindr]. rewrite S. cbn [bindr].
  destruct (length (md_headers m) <? div_ceil (fst (snd s)) (N.to_nat (stripe_sector_count m))); [discriminate|].
  rewrite C2 in R. destruct (length (file_of w (c_data c)) / 512 <? fst (snd s)); [discriminate|].
  apply Ok_inj in R. subst r. eexists _, _. split; [reflexivity|]. cbn [snd]. f_equal. f_equal.
  assert (E1 : whole_stripes (source_of w c) = by_stripes w c).
  { unfold by_stripes, source_of. destruct (c_source c) as [[p' a cr|a|a]|]; reflexivity. }
  assert (E2 : source_data (setup_of xts w c) (source_of w c) = delivered w xts c data).
  { unfold delivered, source_of, source_data. unfold source_matches in SM. destruct (c_source c) as [[p' a cr|a|a]|].
    - reflexivity.
    - destruct SM as (a0 & d0 & ->). reflexivity.
    - destruct SM as (a0 & d0 & ->). reflexivity.
    - cbn [su_base setup_of]. symmetry. rewrite <- (device_plain _ _ _ D). reflexivity. }
  assert (E3 : reads_image (source_of w c) = match image with Some _ => true | None => false end).
  { unfold reads_image, source_of. unfold source_matches in SM. destruct (c_source c) as [[p' a [|]|a|a]|]; try (subst image; reflexivity).
    - destruct I as (o & n & -> & _). reflexivity.
    - destruct SM as (a0 & d0 & ->). subst image; reflexivity.
    - destruct SM as (a0 & d0 & ->). subst image; reflexivity. }
  fold (setup_of xts w c). rewrite E1, E2, E3. reflexivity.
Qed.

(** The other way round: a device that starts in the sense of SetupModel.v comes up. *)

Lemma power_of_two : forall k, ((0 <? 2 ^ k) && (N.land (2 ^ k) (2 ^ k - 1) =? 0))%N = true.
Proof.
  intros k. replace (2 ^ k - 1)%N with (N.ones k) by (rewrite N.ones_equiv; lia). rewrite N.land_ones, N.mod_same by (apply N.pow_nonzero; lia).
  assert (2 ^ k <> 0)%N by (apply N.pow_nonzero; lia). rewrite andb_true_iff. split; [apply N.ltb_lt; lia|reflexivity].
Qed.

Lemma engine_works : forall c p f q ro di th, (c_engine c = IoUring -> exists k, q = (2 ^ k)%N) ->
  w_file w p = Some f -> length f mod 512 = 0 -> exists d, create_io_engine_device w (c_engine c) p q ro di th = Ok d.
Proof.
  intros c p f q ro di th Hq F L. unfold create_io_engine_device. rewrite F. destruct (c_engine c).
  - destruct Hq as (k & ->); [reflexivity|]. unfold open_uring. rewrite power_of_two. cbn [negb].
    replace (N.of_nat (length f) mod 512 =? 0)%N with true by lia. cbn [negb bindr]. eauto.
  - unfold SyncModel.open_device, SECTOR. rewrite L. cbn. eauto.
Qed.

Lemma block_works : forall c p f ro, ready w c -> w_file w p = Some f -> length f mod 512 = 0 ->
  exists d, build_block_device w p c ro = Ok d.
Proof.
  intros c p f ro (_ & _ & _ & Q & K) F L. unfold build_block_device.
  destruct (engine_works c p f (c_queue c) ro true (c_through c) Q F L) as (d & ->). cbn [bindr].
  destruct (c_key c) as [id|]; [|eauto]. destruct (K id eq_refl) as (k & -> & Lk). unfold split_at.
  replace (length k <? 32) with false by lia. cbn [bindr fst snd]. unfold crypt_device, ensure_32_bytes.
  destruct (split_halves k 32) as (L1 & L2); [lia|]. rewrite L1, L2, Lk. cbn. eauto.
Qed.

Lemma image_works : forall c, ready w c -> exists i, build_raw_image_device w c = Ok i.
Proof.
  intros c (_ & _ & I & Q & _). unfold build_raw_image_device. destruct (c_source c) as [[p a r|a|a]|] eqn:E; cbn [raw_image_path]; eauto.
  destruct (I p a r eq_refl) as (f & F & L). destruct (engine_works c p f 64 true true (c_through c)) as (d & ->); cbn; eauto.
  intros _. exists 6%N. reflexivity.
Qed.

Lemma launch_of_start : forall c blank p k h, ready w c -> source_matches w c -> c_metadata c = Some p -> w_file w p <> None ->
  start (setup_of xts w c) blank (file_of w p) = Ok (k, h) ->
  exists l, launch w xts c blank = Ok l /\ l_lazy l = Some (k, h).
Proof.
  intros c blank p k h R SM Hp Hf H.
  assert (G : exists l, launch w xts c blank = Ok l).
  { unfold start in H. apply bind_ok in H as (target & H1 & H). apply bind_ok in H as (m & H2 & H). apply bind_ok in H as (b & H3 & H).
    cbn [su_disk su_cipher su_source setup_of] in *. apply open_device_ok in H1 as (D1 & D2).
    destruct (w_file w p) as [fm|] eqn:Fm; [|congruence].
    assert (M1 : length fm mod 512 = 0).
    { unfold load_image in H2. apply bind_ok in H2 as (ns & H2 & _). apply open_device_ok in H2 as (H2 & _).
      unfold file_of in H2. rewrite Fm in H2. exact H2. }
    destruct (w_file w (c_data c)) as [fd|] eqn:Fd; [|destruct R as (_ & R & _); congruence].
    assert (D1' : length fd mod 512 = 0) by (unfold file_of in D1; rewrite Fd in D1; exact D1).
    destruct (block_works c (c_data c) fd false R Fd D1') as (data & Bd). destruct (block_works c p fm false R Fm M1) as (meta & Bm).
    destruct (image_works c R) as (i & I).
    unfold launch, build. rewrite (proj1 R). cbn [negb]. rewrite Bd. cbn [bindr]. rewrite Hp, Bm. cbn [bindr].
    unfold build_with_bgworker. apply block_ok in Bd, Bm. rewrite (device_load _ _ _ _ Bm), H2. cbn [bindr].
    unfold build_bdev_lazy.
    assert (L : exists i', (if match c_source c with None => true | Some s => source_copy_on_read s end then Ok None else build_raw_image_device w c) = Ok i').
    { destruct (match c_source c with None => true | Some s => source_copy_on_read s end); rewrite ?I; eauto. }
    destruct L as (i' & ->). cbn [bindr fst snd].
    assert (S : exists r, build_stripe_source w c (N.to_nat (stripe_sector_count m)) (has_fetched_all_stripes m) = Ok r).
    { unfold build_stripe_source. rewrite I. unfold build_source in H3. destruct (has_fetched_all_stripes m); [eauto|].
      unfold source_of in H3. destruct (c_source c) as [[p' a r|a|a]|]; cbn [bindr]; try (destruct i; eauto).
      - unfold build_source. rewrite H3. cbn. eauto.
      - unfold build_source. rewrite H3. cbn. eauto.
      - unfold build_source. rewrite H3. cbn. eauto.
      - unfold build_source. rewrite H3. cbn. eauto. }
    destruct S as (r & S). unfold build_bgworker. cbn [b_ssc b_fetched b_metadata b_target b_autofetch]. rewrite S. cbn [bindr].
    apply source_ok in S as (S & _); [|exact SM]. rewrite S in H3. apply Ok_inj in H3. subst b.
    destruct (length (md_headers m) <? div_ceil (fst (snd r)) (N.to_nat (stripe_sector_count m))); [discriminate|].
    destruct (device_count _ _ _ _ Bd) as (_ & ->). subst target.
    destruct (length (file_of w (c_data c)) / 512 <? fst (snd r)); [discriminate|]. cbn [bindr]. eauto. }
  destruct G as (l & G). exists l. split; [exact G|]. destruct (start_of _ _ _ _ SM Hp G) as (k' & h' & -> & E).
  rewrite E in H. apply Ok_inj in H. now rewrite H.
Qed.

(** ** The files that are opened *)

Lemma launch_files : forall c l blank, source_matches w c -> launch w xts c blank = Ok l ->
  forall o, In o (openings (l_bdev l) ++ l_worker l) ->
    ((o_path o = c_data c \/ c_metadata c = Some (o_path o)) /\ opened_as c (o_path o) (c_queue c) false o) \/
    (exists p a r, c_source c = Some (CRaw p a r) /\ opened_as c p 64 true o).
Proof.
  intros c l blank SM H o Ho. unfold launch in H. apply bind_ok in H as ((d & k) & B & H). apply build_ok in B as (data & D & B).
  assert (P : forall p, opened_as c p (c_queue c) false o -> opened_as c (o_path o) (c_queue c) false o /\ o_path o = p).
  { intros p X. destruct X as (X & Y). split; [split; auto|exact X]. }
  destruct (c_metadata c) as [p|] eqn:Hp.
  - destruct B as (meta & m & image & M & Lm & -> & I & ->). cbn [fst snd] in H. apply bind_ok in H as (r & R & H).
    apply Ok_inj in H. subst l. cbn [l_bdev l_worker openings b_target b_meta] in Ho.
    unfold build_bgworker in R. apply bind_ok in R as (s & S & R). apply source_ok in S as (_ & S); [|exact SM].
    rewrite !in_app_iff in Ho. destruct Ho as [[Ho|Ho]|[Ho|[Ho|Ho]]].
    + left. destruct (P _ (device_openings _ _ _ _ D _ Ho)) as (X & Y). auto.
    + right. destruct (c_source c) as [[p' a [|]|a|a]|]; try (subst image; destruct Ho).
      destruct I as (o' & n & -> & O). destruct Ho as [<-|[]]. eauto.
    + left. destruct (P _ (device_openings _ _ _ _ D _ Ho)) as (X & Y). auto.
    + left. destruct (P _ (device_openings _ _ _ _ M _ Ho)) as (X & Y). subst p. auto.
    + right. apply S. cbn [b_ssc b_fetched b_metadata b_target b_autofetch] in R. destruct (_ <? _); [discriminate|]. destruct (_ <? _); [discriminate|].
      apply Ok_inj in R. subst r. exact Ho.
  - destruct B as (-> & ->). cbn [fst snd] in H. apply Ok_inj in H. subst l. cbn [l_bdev l_worker] in Ho. rewrite app_nil_r in Ho.
    left. destruct (P _ (device_openings _ _ _ _ D _ Ho)) as (X & Y). auto.
Qed.

(** ** Devices at work *)

Lemma serves_file : forall o n tr fin, serves xts w (DFile o n) tr fin ->
  exists d, disk_behaviour n (sector_at w (o_path o)) tr d /\ forall x, cur (d_hist d x) = fin x.
Proof.
  intros o n tr fin H. inversion H as [o' n' es f tr' E B start C Ns R|o' n' es s tr' E B C R|]; subst.
  - destruct (UringDiskProofs.sim_run 512 1 eq_refl (o_readonly o) (o_sync o) (N.to_nat (o_entries o)) n ltac:(lia) false ltac:(discriminate)
      es start (new_disk (sector_at w (o_path o))) f tr) as (es' & d & Rd & I); auto.
    { apply (UringDiskProofs.sim_init 512 1 eq_refl); [lia|discriminate]. }
    exists d. rewrite Nat.mul_1_r in Rd. split; [|intros x; eapply UringDiskProofs.hist_cur; eauto].
    exists es'. rewrite Rd. f_equal. f_equal. clear. induction tr as [|t tr IH]; cbn; [auto|]. now rewrite IH.
  - destruct (SyncProofs.sim_run (o_readonly o) (o_sync o) 512 1 eq_refl n ltac:(lia) false ltac:(discriminate)
      es (new_sdev n (sector_at w (o_path o))) (new_disk (sector_at w (o_path o))) s tr) as (es' & d & Rd & I); auto.
    { apply (SyncProofs.sim_init _ 512 1 eq_refl); [lia|discriminate|lia]. }
    exists d. rewrite Nat.mul_1_r in Rd. split; [|intros x; eapply SyncProofs.hist_cur; eauto].
    exists es'. rewrite Rd. f_equal. f_equal. clear. induction tr as [|t tr IH]; cbn; [auto|]. now rewrite IH.
Qed.

Lemma on_sector_inv : forall enc dec, tweakable_cipher enc dec -> forall x v, on_sector dec x (on_sector enc x v) = v.
Proof.
  intros enc dec (A & B & _) x v. unfold on_sector. destruct (Nat.eqb_spec (length v) 512) as [E|E].
  - rewrite B by exact E. cbn. now apply A.
  - destruct (Nat.eqb_spec (length v) 512); [contradiction|reflexivity].
Qed.

Lemma serves_disk : forall c ro d g fin, is_device w c (c_data c) ro d -> cipher_ok (cipher_of xts c) ->
  serves xts w d g fin -> respects (sector_count d) (data_sector xts w c) g ->
  exists dd, disk_behaviour (sector_count d) (data_sector xts w c) g dd /\ forall x, cur (d_hist dd x) = fin x.
Proof.
  intros c ro d g fin D K S R. apply device_cipher in D as (o & n & (P & _) & Ed & En & _). subst d.
  unfold data_sector, cipher_of in *. destruct (keys c) as [[k1 k2]|].
  - inversion S as [| |k1' k2' base es s g' b fin' enc dec Kr Kb Sb]; subst. cbn [sector_count] in *.
    cbn [cipher_ok] in K. destruct (serves_file _ _ _ _ Sb) as (d & Dd & E). rewrite P in Dd. subst enc dec. destruct (xts k1 k2) as [e dc]. cbn [fst snd] in *.
    destruct (C82_encrypted_over_any_disk _ (on_sector e) (on_sector dc) n (sector_at w (c_data c)) es s g b d
      (on_sector_inv _ _ K) Kr Kb R Dd) as (_ & d' & D' & E').
    exists d'. split; [exact D'|]. intros x. rewrite E', E. reflexivity.
  - cbn [sector_count] in *. destruct (serves_file _ _ _ _ S) as (d & Dd & E). rewrite P in Dd. eauto.
Qed.

Lemma work_disk : forall c l blank g fin, source_matches w c -> cipher_ok (cipher_of xts c) -> launch w xts c blank = Ok l ->
  (forall k h, l_lazy l = Some (k, h) -> well_configured k h) ->
  at_work xts w l g fin -> respects (sector_count (l_bdev l)) (configured_contents xts w c l) g ->
  exists d, disk_behaviour (sector_count (l_bdev l)) (configured_contents xts w c l) g d /\
    forall x, x < sector_count (l_bdev l) -> cur (d_hist d x) = fin x.
Proof.
  intros c l blank g fin SM K H WC A R. unfold launch in H. apply bind_ok in H as ((d & k) & B & H). apply build_ok in B as (data & D & B).
  destruct (c_metadata c) as [p|] eqn:Hp.
  - destruct B as (meta & m & image & M & Lm & -> & I & ->). cbn [fst snd] in H. apply bind_ok in H as (r & Rb & H).
    apply Ok_inj in H. subst l. unfold at_work, configured_contents in *. cbn [l_bdev l_lazy sector_count] in *.
    destruct (snd r) as [kc h] eqn:Er. destruct A as (oes & so & b & fb & Fe & Ro & Sb & Fin).
    specialize (WC kc h eq_refl).
    assert (T : target kc = sector_count data).
    { unfold build_bgworker in Rb. apply bind_ok in Rb as (s & _ & Rb). cbn [b_ssc b_fetched b_metadata b_target b_autofetch] in Rb.
      destruct (_ <? _); [discriminate|]. destruct (_ <? _); [discriminate|]. apply Ok_inj in Rb. subst r. cbn [snd] in Er.
      injection Er as <- <-. reflexivity. }
    rewrite <- T in *. pose proof (LayerProps.C79_lazy_keeps_the_contract _ kc _ h oes so g b WC Fe Ro R) as Rb'.
    rewrite T in Rb'. destruct (serves_disk _ _ _ _ _ D K Sb Rb') as (dd & Dd & E). rewrite <- T in Dd.
    destruct (LayerProps.C79_lazy_over_any_disk _ kc _ h oes so g b dd WC Fe Ro Dd) as (d' & D' & E').
    exists d'. split; [exact D'|]. intros x Hx. rewrite (E' x Hx), Fin, E. reflexivity.
  - destruct B as (-> & ->). cbn [fst snd] in H. apply Ok_inj in H. subst l. unfold at_work, configured_contents in *. cbn [l_bdev l_lazy] in *.
    assert (A' : serves xts w data g fin).
    { apply device_cipher in D as (o & n & _ & -> & _). destruct (keys c) as [[k1 k2]|]; exact A. }
    destruct (serves_disk _ _ _ _ _ D K A' R) as (d & Dd & E). eauto.
Qed.

Lemma sector_at_length : forall p x, x < length (file_of w p) / 512 -> length (sector_at w p x) = 512.
Proof. intros p x H. unfold sector_at. rewrite firstn_length, skipn_length. lia. Qed.

Lemma data_length : forall c x, cipher_ok (cipher_of xts c) -> x < length (file_of w (c_data c)) / 512 -> length (data_sector xts w c x) = 512.
Proof.
  intros c x K H. unfold data_sector. apply sector_at_length in H. destruct (cipher_of xts c) as [[enc dec]|]; [|exact H].
  unfold on_sector. rewrite H. cbn. destruct K as (_ & _ & K). now apply K.
Qed.

Lemma contents_length : forall c l blank, source_matches w c -> whole_sectors w -> cipher_ok (cipher_of xts c) -> launch w xts c blank = Ok l ->
  (forall k h, l_lazy l = Some (k, h) -> well_configured k h) ->
  forall x, x < sector_count (l_bdev l) -> length (configured_contents xts w c l x) = 512.
Proof.
  intros c l blank SM W K H WC x Hx.
  assert (Cnt : sector_count (l_bdev l) = length (file_of w (c_data c)) / 512 /\ (c_metadata c = None -> l_lazy l = None)).
  { pose proof H as H'. unfold launch in H'. apply bind_ok in H' as ((d & k) & B & H'). apply build_ok in B as (data & D & B).
    pose proof (device_count _ _ _ _ D) as (_ & C2). destruct (c_metadata c) as [p|].
    - destruct B as (meta & m & image & M & Lm & -> & I & ->). cbn [fst snd] in H'. apply bind_ok in H' as (r & Rb & H').
      apply Ok_inj in H'. subst l. cbn. split; [exact C2|discriminate].
    - destruct B as (-> & ->). cbn [fst snd] in H'. apply Ok_inj in H'. subst l. auto. }
  destruct Cnt as (C1 & C2). rewrite C1 in Hx. unfold configured_contents. destruct (c_metadata c) as [p|] eqn:Hp.
  2:{ rewrite C2 by reflexivity. now apply data_length. }
  destruct (start_of _ _ _ _ SM Hp H) as (k & h & El & St). rewrite El. specialize (WC _ _ El).
  assert (T : target k = length (file_of w (c_data c)) / 512) by exact (proj1 (proj2 (proj2 (C55_options _ _ _ _ _ St)))).
  unfold initial_contents. destruct (_ && _ && _) eqn:E; [|now apply data_length].
  apply andb_true_iff in E as (E & E3). apply andb_true_iff in E as (E1 & E2). apply Nat.ltb_lt in E1. apply negb_true_iff in E3.
  pose proof (wc_cover _ _ WC x ltac:(lia) E1 E2 E3) as Cv.
  unfold start in St. apply bind_ok in St as (t & St1 & St). apply bind_ok in St as (m & St2 & St). apply bind_ok in St as (b & St3 & St).
  destruct (_ <? div_ceil _ _); [discriminate|]. destruct (_ <? _); [discriminate|]. apply Ok_inj in St.
  assert (Ek := f_equal fst St). cbn [fst] in Ek. clear St E1 E2 E3. subst k. cbn [src full_stripes has_image LazyModel.image] in *. cbn [su_source setup_of] in *.
  unfold source_of in *. unfold source_matches in SM. unfold whole_sectors in W. destruct (c_source c) as [[p' a r|a|a]|]; cbn [source_data whole_stripes] in *.
  - destruct Cv as [Cv|(Cv & _)]; [|discriminate]. apply sector_at_length. unfold build_source in St3.
    destruct (has_fetched_all_stripes m); apply Ok_inj in St3; subst b; cbn in Cv; [lia|exact Cv].
  - destruct SM as (a0 & d0 & E0). rewrite E0 in *. cbn. apply W.
  - destruct SM as (a0 & d0 & E0). rewrite E0 in *. cbn. apply W.
  - cbn [su_base setup_of]. now apply data_length.
Qed.

Lemma read_only_kept : forall o n tr fin, serves xts w (DFile o n) tr fin -> o_readonly o = true ->
  forall x, fin x = Some (sector_at w (o_path o) x).
Proof.
  intros o n tr fin H Ro x. inversion H as [o' n' es f tr' E B start C Ns R|o' n' es s tr' E B C R|]; subst.
  - rewrite Ro in R. destruct (C81_read_only _ _ _ _ _ _ _ _ _ _ R) as (_ & F). destruct (F x) as (t & m & ->). reflexivity.
  - rewrite Ro in R. destruct (SyncProps.C72_read_only _ _ _ _ _ _ _ _ _ R) as (_ & F). destruct (F x) as (t & m & ->). reflexivity.
Qed.

End S.
