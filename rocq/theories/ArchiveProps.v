(** Properties C21 (archives), C23-C29. *)
From Coq Require Import List Arith NArith ZArith Bool Lia Sorted Permutation ZifyBool ZifyNat ZifyN.
Import ListNotations.
From Verif Require Import Base BaseFacts ListFacts MetadataModel CryptModel CryptSpec CryptProofs KeyModel CryptProps
  ArchiveModel ArchiverModel ArchiveSpec ArchiveProofs ArchiverProofs ArchiverProofs2.

(** ** C25 *)
(** Every mapping with u64 stripe numbers and 32-byte digests (and fewer than
    2^56 entries) is encoded, and decoding gives it back. *)
Theorem C25_mapping_roundtrip : forall P, lawful P -> forall m hmac_key cipher,
  map_typed m -> (N.of_nat (length m) < 2 ^ 56)%N ->
  exists b, serialize_stripe_mapping P m hmac_key cipher = Ok b /\
    deserialize_stripe_mapping P b hmac_key cipher = Ok m.
Proof. intros P L m key cipher H1 H2. now apply mapping_roundtrip. Qed.

Theorem C25_decoder_total : forall P, lawful P -> forall b hmac_key cipher,
  deserialize_stripe_mapping P b hmac_key cipher <> Panic.
Proof. intros P L b key cipher. now apply deserialize_total. Qed.

(** A blob is rejected when it does not parse, or when any of its fields is wrong. *)
Theorem C25_decoder_rejects : forall P, lawful P -> forall b hmac_key cipher,
  (cbor_file_dec P b = None \/
   exists f, cbor_file_dec P b = Some f /\
     (mf_version f <> 1%N \/ mf_domain f <> MAPPING_DOMAIN \/ length (mf_ciphertext f) mod 512 <> 0 \/
      mf_tag f <> mac P hmac_key (manifest_hmac_input (mf_domain f) (mf_version f) (mf_plaintext_len f) (mf_ciphertext f)) \/
      (N.of_nat (length (mf_ciphertext f)) < mf_plaintext_len f)%N)) ->
  is_err (deserialize_stripe_mapping P b hmac_key cipher) = true.
Proof.
  intros P L b key cipher H. unfold deserialize_stripe_mapping, verify_hmac_tag.
  destruct (cbor_file_dec P b) as [f|]; [|reflexivity].
  destruct H as [H|(f' & E & H)]; [discriminate|]. injection E as <-.
  destruct (mf_version f =? MAPPING_VERSION)%N eqn:E1; cbn [negb]; [|reflexivity].
  destruct (bytes_eqb (mf_domain f) MAPPING_DOMAIN) eqn:E2; cbn [negb]; [|reflexivity].
  destruct (length (mf_ciphertext f) mod SECTOR =? 0) eqn:E3; cbn [negb]; [|reflexivity].
  destruct (bytes_eqb (mf_tag f) _) eqn:E4; [|reflexivity]. cbn [bindr].
  apply N.eqb_eq in E1. apply bytes_eqb_spec in E2. apply bytes_eqb_spec in E4. apply Nat.eqb_eq in E3.
  destruct H as [H|[H|[H|[H|H]]]]; try contradiction.
  destruct cipher as [k|].
  - destruct (xts_total P L k (xdec P k) (mf_ciphertext f) XTS_SECTOR_START (or_intror eq_refl) E3) as (ct & E & Hl).
    rewrite E. cbn [bindr]. rewrite Hl. now replace (_ <? _)%N with true by lia.
  - cbn [bindr]. now replace (_ <? _)%N with true by lia.
Qed.

(** ** C26 *)
Theorem C26_metadata_input_determines_fields : forall m m', ameta_typed m -> ameta_typed m' ->
  metadata_hmac_input m = metadata_hmac_input m' ->
  am_version m = am_version m' /\ am_ssc m = am_ssc m' /\ am_key m = am_key m' /\ am_comp m = am_comp m'.
Proof. exact metadata_input_inj. Qed.

(** (The decoder compares the domain with the constant before it checks the tag.) *)
Theorem C26_mapping_input_determines_fields : forall v l p v' l' p',
  (v < 2 ^ 32)%N -> (v' < 2 ^ 32)%N -> (l < 2 ^ 64)%N -> (l' < 2 ^ 64)%N ->
  manifest_hmac_input MAPPING_DOMAIN v l p = manifest_hmac_input MAPPING_DOMAIN v' l' p' ->
  v = v' /\ l = l' /\ p = p'.
Proof. exact manifest_input_inj. Qed.

Theorem C26_domains_separate : forall m v l p,
  metadata_hmac_input m <> manifest_hmac_input MAPPING_DOMAIN v l p.
Proof. exact domains_disjoint. Qed.

(** ** C27 *)
Theorem C27_framing_roundtrip : forall P, lawful P -> forall a d o,
  compress P a d = Ok o -> length o mod 512 = 0 /\ decompress P a o = Ok d.
Proof. intros P L a d o H. split; [eapply compress_aligned; eauto|eapply decompress_compress; eauto]. Qed.

(** Every whole number of sectors is framed, unless its compressed form is 4 GiB
    or more. *)
Theorem C27_framing_defined : forall P a d, length d mod 512 = 0 ->
  (match a with CompNone => True | CompZstd level => (N.of_nat (length (zenc P level d)) < 2 ^ 32)%N end) ->
  exists o, compress P a d = Ok o.
Proof.
  intros P a d H Hz. unfold compress. change SECTOR with 512. rewrite H. cbn [Nat.eqb negb]. destruct a as [|level]; [eauto|].
  unfold with_size_header. replace (2 ^ 32 <=? N.of_nat (length (zenc P level d)))%N with false; [eauto|].
  symmetry. apply N.leb_gt. exact Hz.
Qed.

Theorem C27_decoder_total : forall P a b, decompress P a b <> Panic.
Proof. exact decompress_total. Qed.

(** ** C23 *)
(** The core: once the mapping is visible, the store is a faithful archive. *)
Lemma stored_faithful : forall P c, lawful P -> aconf_ok c -> no_collision P c ->
  forall s, ainv P c s -> a_store s MAPPING_NAME <> None ->
  faithful P c (a_store s) (mk_source (ac_cipher c) (a_map s) (ac_ssc c) (ac_comp c)).
Proof.
  intros P c L K NC s I Hm. split; [reflexivity|]. intros i.
  destruct (a_store s MAPPING_NAME) as [b|] eqn:Eb; [|contradiction].
  destruct (mapping_started_frozen P c s b I (i_store _ _ _ I _ _ Eb)) as [F _].
  pose proof (keys_has_data P c s I F i) as HK.
  assert (HS : has_stripe (mk_source (ac_cipher c) (a_map s) (ac_ssc c) (ac_comp c)) i = true <-> has_data c i).
  { unfold has_stripe. cbn [s_map]. rewrite <- HK. destruct (map_get (a_map s) i) as [x|].
    - split; eauto.
    - split; [discriminate|intros [x Hx]; discriminate]. }
  split; [exact HS|]. split.
  - intros Hd. pose proof Hd as Hd'. apply HK in Hd'. destruct Hd' as [x Hx].
    unfold fetch_stripe. cbn [s_map s_cipher s_ssc s_comp]. rewrite Hx.
    pose proof (map_get_In _ _ _ Hx) as Hin. pose proof (i_map _ _ _ I) as FM. rewrite Forall_forall in FM.
    apply FM in Hin. destruct Hin as [_ Hin]. cbn [fst snd] in Hin.
    assert (HL : length (contents c i) = stripe_size c) by (apply contents_length; [exact K|apply Hd]).
    destruct x as [|h].
    + apply is_zero_spec, all_zero_repeat in Hin. rewrite HL in Hin. now rewrite <- Hin.
    + destruct Hin as [Hz (o & Ho & -> & Hs)]. destruct F as [_ F]. specialize (F _ Hs).
      destruct (a_store s (object_key (sha P o))) as [d|] eqn:Ed; [|contradiction].
      pose proof (i_store _ _ _ I _ _ Ed) as Hst. apply (started_object P c s _ _ I) in Hst.
      destruct Hst as (st' & Hd' & _ & Ho' & En). apply object_key_inj in En; try apply (l_sha P L).
      assert (o = d) by (eapply (NC i st' o d); eauto). subst d.
      rewrite (finish_of_object P L _ _ _ _ (contents c i) o (stripe_size c)) by (auto; lia).
      rewrite HL, Nat.sub_diag, app_nil_r. reflexivity.
  - intros Hd. unfold fetch_stripe. cbn [s_map]. destruct (map_get (a_map s) i) as [x|] eqn:E; [|reflexivity].
    exfalso. apply Hd, HK. eauto.
Qed.

(** Whatever the contents, the settings and the order of completions: when the
    archiver has finished, the archive opens with the same key-encryption key and
    shows exactly the disk. *)
Theorem C23_archive_roundtrip : forall P c, lawful P -> aconf_ok c -> no_collision P c ->
  forall s, archiving P c s -> a_phase s = PDone ->
  exists src, open_archive P (a_store s) (ac_kek c) = Ok src /\ faithful P c (a_store s) src.
Proof.
  intros P c L K NC s A Hp. destruct (archiving_inv P c s A) as [I _].
  destruct (i_tail _ _ _ I) as [t [_ T]]. rewrite Hp in T. destruct T as (_ & _ & _ & M).
  eexists. split; [now apply open_complete|]. now apply stored_faithful.
Qed.

(** ** C28 *)
(** At every point of every run, finished or interrupted: whatever opens as an
    archive is complete and faithful. *)
Theorem C28_openable_is_complete : forall P c, lawful P -> aconf_ok c -> no_collision P c ->
  forall s, archiving P c s -> forall src, open_archive P (a_store s) (ac_kek c) = Ok src ->
  faithful P c (a_store s) src.
Proof.
  intros P c L K NC s A src H. destruct (archiving_inv P c s A) as [I _].
  destruct (a_store s MAPPING_NAME) as [b|] eqn:Eb.
  - assert (M : a_store s MAPPING_NAME <> None) by congruence.
    rewrite (open_complete P c L K s I M) in H. injection H as <-. now apply stored_faithful.
  - exfalso. unfold open_archive in H. rewrite Eb in H.
    destruct (fetch_metadata P (a_store s)) as [m| |]; try discriminate. cbn [bindr] in H.
    destruct (decrypt_hmac_key P m (ac_kek c)) as [hk| |]; try discriminate. cbn [bindr] in H.
    destruct (verify_metadata_hmac_tag P hk m) as [u| |]; try discriminate. cbn [bindr] in H.
    destruct (am_key m) as [e|]; cbn [bindr] in H; [|discriminate].
    destruct (from_encrypted_key (open_ P) (ac_kek c) e); discriminate.
Qed.

(** The stripe mapping is uploaded last: when its upload starts, the metadata and
    the object of every stripe with non-zero data are already visible. *)
Theorem C28_mapping_uploaded_last : forall P c, lawful P -> aconf_ok c -> no_collision P c ->
  forall s, archiving P c s -> forall p, In p (a_started s) -> po_name p = MAPPING_NAME ->
  a_store s META_NAME <> None /\
  forall i, has_data c i -> ~ all_zero (contents c i) ->
    exists o, stripe_object P (ac_cipher c) (ac_comp c) (ac_ssc c) i (contents c i) = Ok o /\
      a_store s (object_key (sha P o)) = Some o.
Proof.
  intros P c L K NC s A p Hp En. destruct (archiving_inv P c s A) as [I _]. destruct p as [n d]. cbn in En. subst n.
  destruct (mapping_started_frozen P c s d I Hp) as [F M]. split; [exact M|]. intros i Hd Hz.
  pose proof (proj2 (keys_has_data P c s I F i) Hd) as [x Hx]. apply map_get_In in Hx.
  pose proof (i_map _ _ _ I) as FM. rewrite Forall_forall in FM. apply FM in Hx. destruct Hx as [_ Hx]. cbn [fst snd] in Hx.
  destruct x as [|h]; [now apply is_zero_spec in Hx|]. destruct Hx as [_ (o & Ho & -> & Hs)]. exists o. split; [exact Ho|].
  destruct F as [_ F]. specialize (F _ Hs). destruct (a_store s (object_key (sha P o))) as [d'|] eqn:Ed; [|contradiction].
  pose proof (i_store _ _ _ I _ _ Ed) as Hst. apply (started_object P c s _ _ I) in Hst.
  destruct Hst as (st' & Hd' & _ & Ho' & En). apply object_key_inj in En; try apply (l_sha P L).
  f_equal. symmetry. eapply (NC i st' o d'); eauto.
Qed.

(** ** C29 *)
Lemma tail_nodup : forall P c s, ainv P c s -> NoDup (map po_name (a_started s)).
Proof.
  intros P c s I. destruct (i_tail _ _ _ I) as [t [T1 T2]]. rewrite T1.
  assert (Ht : t = [] \/ t = [META_NAME] \/ t = [META_NAME; MAPPING_NAME]) by (destruct (a_phase s); intuition).
  assert (NS : NoDup (rev (a_seen s))) by (apply NoDup_rev; apply (i_seen _ _ _ I)).
  assert (Nk : forall k, In k (rev (a_seen s)) -> k <> META_NAME /\ k <> MAPPING_NAME).
  { intros k Hk. apply in_rev in Hk. apply (i_keys _ _ _ I) in Hk. destruct Hk as [h ->].
    split; [apply object_key_meta|apply object_key_mapping]. }
  clear - NS Nk Ht. assert (Ap : forall (a b : list (list byte)), NoDup a -> NoDup b -> (forall x, In x a -> ~ In x b) -> NoDup (a ++ b)).
  { induction a as [|x a IH]; intros b Ha Hb Hd; [exact Hb|]. cbn. inversion Ha; subst. constructor.
    - rewrite in_app_iff. intros [H|H]; [contradiction|]. apply (Hd x); [now left|exact H].
    - apply IH; auto. intros y Hy. apply Hd. now right. }
  apply Ap; auto.
  - destruct Ht as [Ht|[Ht|Ht]]; subst t.
    + constructor.
    + constructor; [auto|constructor].
    + constructor; [|constructor; [auto|constructor]]. intros [H|[]]. symmetry in H. now apply meta_mapping in H.
  - intros x Hx Hin. destruct (Nk x Hx) as [N1 N2]. destruct Ht as [Ht|[Ht|Ht]]; subst t; cbn in Hin; intuition.
Qed.

(** No name is uploaded twice; every stripe upload is the object of a stripe with
    data that is not all zero, under the name of its digest; each stripe is read
    at most once, only if it has data, from the disk iff it was written or
    fetched; and the fetches in progress plus the free buffers are at most the
    configured concurrency, so no more fetches run at once. *)
Theorem C29_uploads_once_and_bounded_fetches : forall P c, lawful P -> aconf_ok c ->
  forall s, archiving P c s ->
  NoDup (map po_name (a_started s)) /\
  (forall p, In p (a_started s) -> po_name p <> META_NAME -> po_name p <> MAPPING_NAME ->
     po_name p = object_key (sha P (po_data p)) /\
     exists i, has_data c i /\ ~ all_zero (contents c i) /\
       stripe_object P (ac_cipher c) (ac_comp c) (ac_ssc c) i (contents c i) = Ok (po_data p)) /\
  NoDup (map fst (a_reads s)) /\
  (forall i d, In (i, d) (a_reads s) -> has_data c i /\
     exists h, nth_error (ac_headers c) i = Some h /\ d = N.testbit h 1 || N.testbit h 0) /\
  length (a_bufs s) <= ac_concurrency c.
Proof.
  intros P c L K s A. destruct (archiving_inv P c s A) as [I _].
  split; [eapply tail_nodup; eauto|]. split; [|split; [apply (i_reads _ _ _ I)|split]].
  - intros p Hp N1 N2. apply (i_started _ _ _ I) in Hp. destruct Hp as [(i & Hd & Hz & Ho & En)|[[E _]|[E _]]]; try contradiction.
    split; [exact En|]. exists i. split; [exact Hd|]. split; [|exact Ho]. rewrite <- is_zero_spec. congruence.
  - intros i d Hin. apply (i_reads _ _ _ I) in Hin. destruct Hin as (_ & Hd & h & E1 & E2). split; [exact Hd|].
    exists h. split; [exact E1|]. subst d. unfold from_disk. now rewrite flag_written, flag_fetched.
  - destruct A as [es H].
    assert (G : forall es s0, length (a_bufs s0) + length (a_free s0) <= ac_concurrency c ->
        arun P c s0 es = Some s -> length (a_bufs s) + length (a_free s) <= ac_concurrency c).
    { clear. induction es as [|e es IH]; intros s0 H0 H; cbn in H; [congruence|].
      destruct (astep P c s0 e) as [s1|] eqn:E; [|discriminate]. apply (IH s1); auto. clear H IH.
      assert (R : forall st x, find_buf (a_bufs s0) st = Some x -> S (length (remove_buf (a_bufs s0) st)) = length (a_bufs s0)).
      { intros st x Hx. apply remove_buf_perm in Hx. apply Permutation_length in Hx. cbn in Hx. lia. }
      destruct e as [|st|st ok|i|i ok| |]; cbn [astep] in E.
      - destruct (a_phase s0); try discriminate. destruct (_ <? _); try discriminate.
        destruct (header c _); try (injection E as <-; exact H0). destruct (should_be_archived _).
        + destruct (a_free s0) eqn:Ef; injection E as <-; [rewrite Ef; exact H0|]. cbn in *. rewrite app_length. cbn. lia.
        + injection E as <-. exact H0.
      - destruct (a_phase s0); try discriminate. destruct (find_buf (a_bufs s0) st) as [[b [|]]|] eqn:Ef; try discriminate.
        destruct (header c st); try discriminate. injection E as <-. cbn. rewrite app_length. apply R in Ef. cbn. lia.
      - destruct (a_phase s0); try discriminate. destruct (find_buf (a_bufs s0) st) as [[b f]|] eqn:Ef; try discriminate.
        apply R in Ef. destruct ok; [|injection E as <-; exact H0]. destruct f; [|discriminate]. injection E as <-.
        unfold start_upload. destruct (is_zero_stripe _); [cbn; rewrite app_length; cbn; lia|].
        destruct (stripe_object _ _ _ _ _ _); try (cbn; lia). destruct (seen_key _ _); cbn; rewrite app_length; cbn; lia.
      - destruct (nth_error _ _); [|discriminate]. injection E as <-. exact H0.
      - destruct (nth_error _ _); [|discriminate]. destruct (a_phase s0); try discriminate.
        + destruct ok; [destruct (a_inflight s0)|]; injection E as <-; exact H0.
        + destruct (bytes_eqb _ _); [|injection E as <-; exact H0].
          destruct ok; [destruct (serialize_stripe_mapping _ _ _ _)|]; injection E as <-; exact H0.
        + destruct (bytes_eqb _ _); injection E as <-; exact H0.
      - destruct (a_phase s0); try discriminate; injection E as <-; exact H0.
      - destruct (a_phase s0); try discriminate. destruct (_ && _); [|discriminate].
        destruct (serialize_stripe_mapping _ _ _ _); [|injection E as <-; exact H0..].
        destruct (archive_metadata_of _ _); injection E as <-; exact H0. }
    apply G in H; [lia|]. cbn. rewrite seq_length. lia.
Qed.
