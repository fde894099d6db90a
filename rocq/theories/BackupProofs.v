(** Proofs about archiving a device and making a new one from the archive. *)
From Coq Require Import List Arith NArith ZArith Bool Lia ZifyBool ZifyNat ZifyN.
Import ListNotations.
From Verif Require Import Base BaseFacts DiskSpec MetadataModel MetadataSpec LazyState LazyModel LazySpec CryptModel CryptSpec SetupModel SetupSpec
  StackModel StackSpec StackProofs StackProps KeyModel ArchiveModel ArchiverModel ArchiveSpec ArchiveProps OfflineModel RestartSpec RestartFacts RestartProofs CloneModel CloneSpec CloneProofs
  BackupModel BackupSpec.
From Verif Require OfflineProps RestartProps.
Local Open Scope nat_scope.

Lemma stripe_length : forall (f : nat -> list byte) n st, (forall x, In x (seq (st * n) n) -> length (f x) = 512) -> length (stripe_at f n st) = n * 512.
Proof.
  intros f n st. unfold stripe_at. generalize (st * n). clear st. induction n as [|i IH]; intros j H; [reflexivity|].
  cbn [seq map concat]. rewrite app_length, IH by (intros; apply H; now right). rewrite (H j (or_introl eq_refl)). lia.
Qed.

Lemma map_concat_ext : forall (f g : nat -> list byte) xs, (forall x, In x xs -> f x = g x) -> concat (map f xs) = concat (map g xs).
Proof. intros f g xs H. f_equal. now apply map_ext_in. Qed.

Lemma archive_is : forall w (xts : xts_type) c blank l a o,
  source_matches w c -> launch w xts c blank = Ok l -> archive_of w xts c o = Ok a ->
  exists k h m, l_lazy l = Some (k, h) /\ (md_shift m <= 17)%N /\ ssc k = N.to_nat (2 ^ md_shift m) /\ nst k = length (md_headers m) /\
    (forall st, h st = nth st (md_headers m) 0%N) /\ target k = length (file_of w (c_data c)) / 512 /\
    a = mk_aconf (div_ceil (target k) (ssc k)) (md_headers m) (2 ^ md_shift m)
          (ao_cipher o) (ao_comp o) (ao_kek o) (ao_hmac_key o) (ao_nonce_key o) (ao_nonce_hmac o) 4
          (stripe_at (data_sector xts w c) (ssc k)) (stripe_at (fun x => in_buffer (LazyModel.image k x)) (ssc k)).
Proof.
  intros w xts c blank l a o SM L Ea. unfold archive_of in Ea. destruct (c_metadata c) as [p|] eqn:Hp; [|discriminate Ea].
  apply bind_ok in Ea as (meta & Hm & Ea). apply (block_ok w xts) in Hm. apply bind_ok in Ea as (m & Lm & Ea).
  apply bind_ok in Ea as (disk & Hd & Ea). apply (block_ok w xts) in Hd. apply bind_ok in Ea as (s & _ & Ea). apply Ok_inj in Ea.
  rewrite (device_load w xts _ _ _ _ Hm) in Lm. pose proof (device_count w xts _ _ _ _ Hd) as (_ & Cd). pose proof (device_plain w xts _ _ _ Hd) as Pd.
  destruct (start_of w xts c l blank p SM Hp L) as (k & h & El & St). exists k, h, m. split; [exact El|].
  unfold start in St. apply bind_ok in St as (t & T & St). apply bind_ok in St as (m' & Lm' & St). apply bind_ok in St as (b & _ & St).
  destruct (_ <? div_ceil _ _); [discriminate|]. destruct (_ <? _); [discriminate|]. apply Ok_inj in St.
  assert (Ek := f_equal fst St). assert (Eh := f_equal snd St). cbn [fst snd] in Ek, Eh. clear St.
  assert (Et : t = length (file_of w (c_data c)) / 512).
  { unfold SetupModel.open_device in T. cbn [su_disk setup_of] in T. destruct (negb _) in T; [discriminate|]. now apply Ok_inj in T. }
  cbn [su_cipher setup_of] in Lm'. rewrite Lm in Lm'. apply Ok_inj in Lm'. subst m'.
  assert (Fs : (md_shift m <= 17)%N).
  { unfold load_image in Lm. apply bind_ok in Lm as (sc & _ & Lm). destruct (negb _) in Lm; [discriminate|]. apply bind_ok in Lm as (buf & _ & Lm).
    exact (proj1 (proj2 (from_bytes_form _ _ Lm))). }
  assert (Sc : stripe_sector_count m = (2 ^ md_shift m)%N) by (unfold stripe_sector_count; now rewrite N.shiftl_1_l).
  split; [exact Fs|]. subst k h. cbn [target ssc nst LazyModel.image]. rewrite Sc, Et.
  split; [reflexivity|]. split; [reflexivity|]. split; [reflexivity|]. split; [reflexivity|]. subst a. rewrite Sc, Cd, Pd.
  assert (Im : delivered w xts c disk = source_data (setup_of xts w c) (su_source (setup_of xts w c))).
  { unfold delivered, source_data. cbn [su_source su_base setup_of]. unfold source_of, source_matches in *. destruct (c_source c) as [[p' a r|a|a]|].
    - reflexivity.
    - destruct SM as (a' & d & ->). reflexivity.
    - destruct SM as (a' & d & ->). reflexivity.
    - exact Pd. }
  rewrite Im. reflexivity.
Qed.

(** What an archive of the files gives: the contents the next run would start with. *)
Lemma archive_contents : forall w (xts : xts_type) c blank l o a P s,
  source_matches w c -> whole_sectors w -> cipher_ok (cipher_of xts c) -> launch w xts c blank = Ok l -> RestartProps.lazy_ready l ->
  in_whole_stripes l -> zeros_where_unused xts w c l -> nothing_half_written l ->
  archive_of w xts c o = Ok a -> (N.of_nat (sector_count (l_bdev l)) < 2 ^ 56)%N ->
  lawful P -> OfflineProps.options_ok o -> no_collision P a -> archiving P a s -> a_phase s = PDone ->
  let n := N.to_nat (ac_ssc a) in
  0 < n /\ sector_count (l_bdev l) = ac_count a * n /\
  exists src, open_archive P (a_store s) (ao_kek o) = Ok src /\ s_ssc src = ac_ssc a /\
    forall st, st < ac_count a \/ has_stripe src st = true ->
      st < ac_count a /\ fetch_stripe P (a_store s) src st (n * 512) = Ok (stripe_at (configured_contents xts w c l) n st) /\
      (has_stripe src st = false -> stripe_at (configured_contents xts w c l) n st = repeat 0%N (n * 512)).
Proof.
  intros w xts c blank l o a P s SM W K L WC Wh Z Hw Ea B56 La Oo NC Ar Ph n.
  destruct (archive_is w xts c blank l a o SM L Ea) as (k & h & m & El & Fs & E1 & E2 & E3 & E4 & ->).
  pose proof (WC _ _ El) as WCk. pose proof (proj1 Wh _ _ El) as Whk. pose proof (wc_ssc _ _ WCk) as S0.
  pose proof (OfflineProps.count_whole k h WCk Whk) as Cw. rewrite Cw in *.
  assert (En : n = ssc k) by (unfold n; cbn [ac_ssc]; now rewrite E1). clearbody n. subst n.
  pose proof (size_of _ _ _ _ _ L) as Sz. rewrite <- E4 in Sz.
  assert (Cl : forall x, x < target k -> length (configured_contents xts w c l x) = 512).
  { intros x Hx. apply (contents_length w xts c l blank SM W K L WC). now rewrite Sz. }
  assert (Dl : forall x, x < target k -> length (data_sector xts w c x) = 512).
  { intros x Hx. apply data_length; [exact K|]. now rewrite <- E4. }
  assert (In_st : forall st x, st < nst k -> In x (seq (st * ssc k) (ssc k)) -> x < target k /\ x / ssc k = st).
  { intros st x Hst Hx. apply in_seq in Hx. rewrite Whk. split; [nia|]. symmetry. apply (Nat.div_unique x (ssc k) st (x - st * ssc k)); lia. }
  assert (Ls : forall (f : nat -> list byte) st, (forall x, In x (seq (st * ssc k) (ssc k)) -> length (f x) = 512) -> length (stripe_at f (ssc k) st) = ssc k * 512).
  { intros f st. apply stripe_length. }
  set (a := mk_aconf _ _ _ _ _ _ _ _ _ _ _ _) in *.
  assert (Sa : ArchiveSpec.stripe_size a = ssc k * 512) by (unfold ArchiveSpec.stripe_size, a; cbn [ac_ssc]; now rewrite E1).
  assert (Ok_ : aconf_ok a).
  { destruct Oo as [O1 [O2 O2'] (O3 & O4 & O5 & O6) O7 O8].
    constructor; rewrite ?Sa; unfold a; cbn [ac_count ac_headers ac_ssc ac_dev ac_src ac_comp ac_hmac_key ac_nonce_key ac_nonce_hmac ac_cipher ac_kek]; auto.
    - lia.
    - rewrite Sz, Whk in B56. nia.
    - assert (2 ^ md_shift m <= 2 ^ 17)%N by (apply N.pow_le_mono_r; lia). assert (2 ^ 17 < 2 ^ 64)%N by reflexivity. lia.
    - intros st Hst. apply Ls. intros x Hx. apply Dl. now apply (In_st st).
    - intros st _. apply Ls. intros x _. exact (pad_length _).
    - destruct (ao_cipher o) as [[x y]|]; tauto.
    - destruct (ao_cipher o) as [[x y]|]; tauto. }
  split; [exact S0|]. split; [rewrite Sz, Whk; reflexivity|].
  destruct (C23_archive_roundtrip P a La Ok_ NC s Ar Ph) as (src & Eo & Es & Fa). exists src. split; [exact Eo|]. split; [exact Es|]. rewrite Sa in Fa.
  assert (Hx : forall st, st < nst k -> nth_error (md_headers m) st = Some (h st)).
  { intros st Hst. rewrite E3. apply nth_error_nth'. now rewrite <- E2. }
  assert (Hd : forall st, st < nst k -> (has_data a st <-> N.testbit (h st) 1 = true \/ N.testbit (h st) 2 = true)).
  { intros st Hst. unfold has_data, a. cbn [ac_count ac_headers]. rewrite Hx by exact Hst. split.
    - intros (_ & h0 & E0 & H). injection E0 as <-. exact H.
    - intros H. split; [exact Hst|]. eauto. }
  assert (Zs : forall st, st < nst k -> ~ has_data a st -> stripe_at (configured_contents xts w c l) (ssc k) st = repeat 0%N (ssc k * 512)).
  { intros st Hst Nd. rewrite (Hd st Hst) in Nd. unfold stripe_at.
    assert (X : forall x, In x (seq (st * ssc k) (ssc k)) -> configured_contents xts w c l x = repeat 0%N 512).
    { intros x Hin. destruct (In_st st x Hst Hin) as (Xt & Xs). unfold configured_contents. rewrite El. unfold initial_contents. rewrite Xs, OfflineProps.hf_source.
      destruct (N.testbit (h st) 2) eqn:B2; [tauto|]. rewrite andb_false_r. cbn [andb]. apply (Z k h El x Xt); rewrite Xs; [exact B2|]. destruct (N.testbit (h st) 1); tauto. }
    revert X. generalize (st * ssc k). clear. induction (ssc k) as [|i IH]; intros j X; [reflexivity|].
    cbn [seq map concat]. rewrite X by now left. rewrite IH by (intros; apply X; now right). change (S i * 512) with (512 + i * 512). now rewrite repeat_app. }
  intros st Hs. assert (Hst : st < nst k).
  { destruct Hs as [Hs|Hs]; [exact Hs|]. apply (proj1 (Fa st)) in Hs. exact (proj1 Hs). }
  split; [exact Hst|]. destruct (Fa st) as (F0 & F1 & F2). split.
  2: { intros Hf. apply Zs; [exact Hst|]. intros D. apply F0 in D. congruence. }
  destruct (N.testbit (h st) 1 || N.testbit (h st) 2) eqn:Bd.
  2: { apply orb_false_iff in Bd as (B1 & B2). assert (Nd : ~ has_data a st) by (rewrite (Hd st Hst), B1, B2; intros [X|X]; discriminate X).
       rewrite F2 by exact Nd. now rewrite Zs. }
  apply orb_true_iff in Bd. rewrite F1 by (now apply Hd). f_equal. unfold contents, a. cbn [ac_headers ac_dev ac_src]. rewrite Hx by exact Hst.
  unfold configured_contents. rewrite El.
  assert (X : forall x, In x (seq (st * ssc k) (ssc k)) -> initial_contents k (data_sector xts w c) h x =
    if N.testbit (h st) 2 && negb (N.testbit (h st) 0) then LazyModel.image k x else data_sector xts w c x).
  { intros x Hin. destruct (In_st st x Hst Hin) as (_ & Xs). unfold initial_contents. rewrite Xs, OfflineProps.hf_source, OfflineProps.hf_fetched.
    destruct (Nat.ltb_spec st (nst k)); [reflexivity|lia]. }
  destruct (N.testbit (h st) 2 && negb (N.testbit (h st) 0)) eqn:Bs.
  - apply andb_true_iff in Bs as (B2 & B0). apply negb_true_iff in B0. destruct (N.testbit (h st) 1) eqn:B1; [rewrite (Hw k h El st Hst B1 B2) in B0; discriminate B0|].
    rewrite B0. cbn [orb]. apply map_concat_ext. intros x Hin. rewrite X by exact Hin. apply pad_whole.
    destruct (In_st st x Hst Hin) as (Xt & _). specialize (Cl x Xt). unfold configured_contents in Cl. rewrite El, X in Cl by exact Hin. exact Cl.
  - assert (Bo : N.testbit (h st) 1 || N.testbit (h st) 0 = true).
    { destruct (N.testbit (h st) 1); [reflexivity|]. destruct Bd as [Bd|Bd]; [discriminate Bd|]. rewrite Bd in Bs. cbn [andb] in Bs. now apply negb_false_iff in Bs. }
    rewrite Bo. apply map_concat_ext. intros x Hin. now rewrite X.
Qed.
