(** Proofs about cloning a device from the stripe server of another. *)
From Coq Require Import List Arith NArith ZArith Bool Lia ZifyBool ZifyNat ZifyN.
Import ListNotations.
From Verif Require Import Base BaseFacts DiskSpec MetadataModel MetadataSpec LazyState LazyModel LazySpec CryptModel CryptSpec SetupModel SetupSpec
  StackModel StackSpec StackProofs StackProps OfflineModel RestartSpec RestartFacts RestartProofs CloneModel CloneSpec.
From Verif Require MetadataProofs RemoteModel RemoteProofs OfflineSpec OfflineProofs OfflineProps MoveProps SetupProofs SetupProps LazyProofs RestartProps.
Local Open Scope nat_scope.

(** Sectors of 512 bytes are what they are; others do not occur. *)
Definition pad (v : sector) : list byte := firstn 512 (v ++ repeat 0%N 512).
Lemma pad_length : forall v, length (pad v) = 512.
Proof. intros v. unfold pad. rewrite firstn_length, app_length, repeat_length. lia. Qed.
Lemma pad_whole : forall v, length v = 512 -> pad v = v.
Proof. intros v H. unfold pad. rewrite firstn_app, H, Nat.sub_diag, <- H, firstn_all. cbn [firstn]. apply app_nil_r. Qed.

(** A disk on which nothing happens but power failures. *)
Lemma idle_disk {V} size (c : nat -> V) es : forall d d' t, (forall n, d_ops d n = None) -> (forall x, d_hist d x = [(0, c x)]) ->
  (forall i, In i t -> i = TCrash) -> drun size d es = Some (d', t) -> forall x, d_hist d' x = [(0, c x)].
Proof.
  induction es as [|e es IH]; intros d d' t Ho Hh Ht H; cbn [drun] in H; [injection H as <- _; exact Hh|].
  destruct (dstep size d e) as [[d1 t1]|] eqn:E; [|discriminate]. destruct (drun size d1 es) as [[d2 t2]|] eqn:R; [|discriminate]. injection H as <- <-.
  assert (Ht1 : forall i, In i t1 -> i = TCrash) by (intros; apply Ht, in_or_app; auto).
  assert (Ht2 : forall i, In i t2 -> i = TCrash) by (intros; apply Ht, in_or_app; auto).
  destruct e as [n q id r|n i|n i|n ok|sv]; cbn [dstep] in E; rewrite ?Ho in E; try discriminate.
  - destruct (d_used d n); [discriminate|]. injection E as <- <-. specialize (Ht1 _ (or_introl eq_refl)). discriminate.
  - injection E as <- <-. refine (IH _ _ t2 _ _ Ht2 R); [reflexivity|]. cbn [d_hist]. intros x. rewrite Hh. unfold crashed. cbn. destruct (sv x) as [|[|n]]; reflexivity.
Qed.

Lemma idle_behaviour {V} size (c : nat -> V) d : disk_behaviour size c [TCrash] d -> forall x, cur (d_hist d x) = Some (c x).
Proof.
  intros (es & R) x. rewrite (idle_disk size c es (new_disk c) d [TCrash]); auto. intros i [<-|[]]. reflexivity.
Qed.

Lemma from_bytes_form : forall buf m, from_bytes buf = Ok m ->
  m = current_metadata (md_shift m) (md_headers m) /\ (md_shift m <= 17)%N /\ RemoteModel.is_legacy_v0_2 buf = false.
Proof.
  intros buf m H. unfold from_bytes in H. destruct (Nat.ltb _ _); [discriminate|]. destruct (negb _); [discriminate|].
  apply bind_ok in H as (s0 & _ & H). apply bind_ok in H as (v & _ & H). destruct (negb v); [discriminate|].
  apply bind_ok in H as (mg & _ & H). destruct (bytes_eqb mg UBI_MAGIC) eqn:E1; [|discriminate]. cbn [negb] in H. apply bytes_eqb_spec in E1.
  apply bind_ok in H as (vmaj & S1 & H). apply bind_ok in H as (vmin & _ & H).
  destruct (bytes_eqb vmaj (le_bytes 2 METADATA_VERSION_MAJOR)) eqn:E2; [|discriminate]. destruct (bytes_eqb vmin (le_bytes 2 METADATA_VERSION_MINOR)) eqn:E3; [|discriminate].
  cbn [negb orb] in H. apply bytes_eqb_spec in E2, E3.
  apply bind_ok in H as (sh & _ & H). destruct (N.ltb_spec MAX_STRIPE_SECTOR_COUNT_SHIFT sh) as [|Hsh]; [discriminate|].
  apply bind_ok in H as (b0 & _ & H). apply bind_ok in H as (b1 & _ & H). apply bind_ok in H as (b2 & _ & H). apply bind_ok in H as (b3 & _ & H).
  destruct (_ <? _)%N in H; [discriminate|]. apply bind_ok in H as (al & _ & H). destruct (negb _) in H; [discriminate|]. apply Ok_inj in H.
  subst m. cbn [md_shift md_headers]. split; [|split].
  - subst mg vmaj vmin. reflexivity.
  - exact Hsh.
  - unfold slice in S1. destruct (_ && _)%bool in S1; [|discriminate]. apply Ok_inj in S1. change UBI_MAGIC_SIZE with 9 in S1. change (9 + 2 - 9) with 2 in S1.
    rewrite E2 in S1. unfold RemoteModel.is_legacy_v0_2.
    assert (N9 : nth 9 buf 0%N = 2%N).
    { replace (nth 9 buf 0%N) with (nth 0 (skipn 9 buf) 0%N) by (rewrite (MetadataProofs.nth_skipn buf 9 0 0%N); reflexivity).
      destruct (skipn 9 buf) as [|a r]; [discriminate S1|]. cbn [firstn] in S1. apply (f_equal (hd 0%N)) in S1. exact S1. }
    rewrite N9. cbn. now rewrite andb_false_r.
Qed.

Notation configured c := (match c_source c with Some _ => true | None => false end).

(** The server and the backend read the same metadata. *)
Lemma server_is : forall w (xts : xts_type) c blank l k h ss,
  source_matches w c -> launch w xts c blank = Ok l -> l_lazy l = Some (k, h) -> stripe_server w xts c = Ok ss ->
  exists m, m = current_metadata (md_shift m) (md_headers m) /\ (md_shift m <= 17)%N /\
    RemoteModel.prepare_stripe_server (Some m) (c_track c) (configured c) (target k) = Ok ss /\
    ssc k = N.to_nat (2 ^ md_shift m) /\ nst k = length (md_headers m) /\ (forall st, h st = nth st (md_headers m) 0%N) /\
    track k = c_track c /\ target k = length (file_of w (c_data c)) / 512 /\
    (c_source c <> None -> forall x, image k x = sourced w c x).
Proof.
  intros w xts c blank l k h ss SM L El Es.
  unfold stripe_server in Es. apply bind_ok in Es as (disk & Hd & Es). apply (block_ok w xts) in Hd. pose proof (device_count w xts _ _ _ _ Hd) as (_ & Cd).
  destruct (c_metadata c) as [p|] eqn:Hp.
  2:{ unfold launch in L. apply bind_ok in L as ((d & kw) & B & L). apply build_ok in B as (data & D & B). rewrite Hp in B. destruct B as (-> & ->).
      cbn [fst snd] in L. apply Ok_inj in L. subst l. discriminate. }
  apply bind_ok in Es as (meta & Hm & Es). apply (block_ok w xts) in Hm. apply bind_ok in Es as (m & Lm & Es).
  destruct (start_of w xts c l blank p SM Hp L) as (k' & h' & El' & St). rewrite El in El'. injection El' as <- <-.
  unfold start in St. apply bind_ok in St as (t & T & St). apply bind_ok in St as (m' & Lm' & St). apply bind_ok in St as (b & _ & St).
  destruct (_ <? div_ceil _ _); [discriminate|]. destruct (_ <? _); [discriminate|]. apply Ok_inj in St.
  assert (Ek := f_equal fst St). assert (Eh := f_equal snd St). cbn [fst snd] in Ek, Eh. clear St.
  assert (Et : t = length (file_of w (c_data c)) / 512).
  { unfold SetupModel.open_device in T. cbn [su_disk setup_of] in T. destruct (negb _) in T; [discriminate|]. now apply Ok_inj in T. }
  assert (Em : m = m' /\ exists buf, from_bytes buf = Ok m).
  { cbn [su_cipher setup_of] in Lm'. unfold load_image in Lm'. destruct (device_cipher w xts _ _ _ _ Hm) as (o & n & (P & _) & -> & _).
    apply bind_ok in Lm' as (sc & O1 & Lm'). destruct (negb _) eqn:B1 in Lm'; [discriminate|]. apply bind_ok in Lm' as (buf & Db & Lm').
    unfold cipher_of in Db. unfold serving_metadata in Lm.
    assert (X : RemoteModel.load_metadata_for_serving buf (N.of_nat (sector_count disk)) = Ok m).
    { destruct (keys c) as [[k1 k2]|]; unfold read_metadata_bytes in Lm; rewrite P, O1 in Lm; cbn [bindr] in Lm; rewrite B1, Db in Lm; exact Lm. }
    unfold RemoteModel.load_metadata_for_serving in X. destruct (from_bytes_form _ _ Lm') as (_ & _ & Nl). rewrite Nl in X. split; [congruence|]. exists buf; exact X. }
  destruct Em as (<- & buf & Fb). destruct (from_bytes_form _ _ Fb) as (Fm & Fs & _). exists m. split; [exact Fm|]. split; [exact Fs|].
  subst k h. cbn [target ssc nst track LazyModel.image]. rewrite Et, <- Cd. split; [exact Es|].
  split; [unfold stripe_sector_count; now rewrite N.shiftl_1_l|]. split; [reflexivity|]. split; [reflexivity|]. split; [reflexivity|]. split; [now rewrite Cd|].
  intros Ns x. cbn [su_source setup_of]. unfold sourced, source_of, source_matches in *. destruct (c_source c) as [[p' a r|a|a]|]; [reflexivity| | |congruence].
  - destruct SM as (a' & d & ->). reflexivity.
  - destruct SM as (a' & d & ->). reflexivity.
Qed.

Lemma map_concat_ext {A B} (f g : A -> list B) l : (forall x, In x l -> f x = g x) -> concat (map f l) = concat (map g l).
Proof. intros H. f_equal. now apply map_ext_in. Qed.

(** What the server of a stopped device has for its clients. *)
Lemma server_contents : forall w (xts : xts_type) c blank l k h ss o,
  source_matches w c -> whole_sectors w -> cipher_ok (cipher_of xts c) -> launch w xts c blank = Ok l -> RestartProps.lazy_ready l ->
  l_lazy l = Some (k, h) -> in_whole_stripes l -> (c_track c = true -> zeros_where_unused xts w c l) ->
  stripe_server w xts c = Ok ss -> reads_device xts w c ss o ->
  N.to_nat (2 ^ md_shift (RemoteModel.ss_meta ss)) = ssc k /\ length (md_headers (RemoteModel.ss_meta ss)) = nst k /\
  forall st, st < nst k ->
    (RemoteModel.remote_has_stripe (md_headers (RemoteModel.ss_meta ss)) st = Ok true /\
     exists reply, RemoteModel.handle_read_stripe ss o (N.of_nat st) = Ok (reply, true) /\
       forall more, RemoteModel.client_fetch_stripe (Some (RemoteModel.ss_meta ss)) (reply ++ more) =
         RemoteModel.COk (stripe_at (configured_contents xts w c l) (ssc k) st) more) \/
    (RemoteModel.remote_has_stripe (md_headers (RemoteModel.ss_meta ss)) st = Ok false /\ c_track c = true /\
     stripe_at (configured_contents xts w c l) (ssc k) st = repeat 0%N (ssc k * 512)).
Proof.
  intros w xts c blank l k h ss o SM W K L WC El Wh Z Es Rd. pose proof (WC _ _ El) as WCk. pose proof (proj1 Wh _ _ El) as Whk.
  destruct (server_is w xts c blank l k h ss SM L El Es) as (m & Fm & Fs & Ep & E1 & E2 & E3 & E4 & E5 & E6).
  assert (Sc : sector_count (l_bdev l) = target k).
  { unfold launch in L. apply bind_ok in L as ((d & kw) & B & L). apply build_ok in B as (data & D & B). pose proof (device_count w xts _ _ _ _ D) as (_ & Cd).
    destruct (c_metadata c) as [p|].
    - destruct B as (meta & m' & im & _ & _ & -> & _ & ->). cbn [fst snd] in L. apply bind_ok in L as (r & _ & L). apply Ok_inj in L. subst l. cbn. congruence.
    - destruct B as (-> & ->). cbn [fst snd] in L. apply Ok_inj in L. subst l. cbn. congruence. }
  assert (Cl : forall x, x < target k -> length (configured_contents xts w c l x) = 512).
  { intros x Hx. apply (contents_length w xts c l blank SM W K L WC). now rewrite Sc. }
  assert (Dl : forall x, x < target k -> length (data_sector xts w c x) = 512).
  { intros x Hx. apply data_length; [exact K|]. now rewrite <- E5. }
  assert (In_st : forall st x, st < nst k -> In x (seq (st * ssc k) (ssc k)) -> x < target k /\ x / ssc k = st).
  { intros st x Hst Hx. apply in_seq in Hx. rewrite Whk. split; [nia|]. symmetry. apply (Nat.div_unique x (ssc k) st (x - st * ssc k)); lia. }
  set (base := data_sector xts w c) in *. set (pb := fun _ : nat => 0).
  assert (Hod : headers_on_disk k (reached k base h ([] ++ [ECrash pb pb])) = md_headers m).
  { unfold headers_on_disk. rewrite E2. apply nth_ext with (d := 0%N) (d' := 0%N); [now rewrite map_length, seq_length|].
    intros i Hi. rewrite map_length, seq_length in Hi.
    rewrite (nth_indep _ 0%N (loaded_headers k (mh (reached k base h ([] ++ [ECrash pb pb]))) 0)) by (now rewrite map_length, seq_length).
    rewrite map_nth, seq_nth by exact Hi. rewrite <- E3. reflexivity. }
  assert (Es' : server_of k (reached k base h ([] ++ [ECrash pb pb])) (md_shift m) (configured c) = Ok ss).
  { unfold server_of. rewrite Hod, E4. rewrite Fm in Ep. exact Ep. }
  assert (Ms : md_shift (RemoteModel.ss_meta ss) = md_shift m /\ length (md_headers (RemoteModel.ss_meta ss)) = nst k /\
    (forall st, st < nst k -> let a := nth st (md_headers m) 0%N in let b := nth st (md_headers (RemoteModel.ss_meta ss)) 0%N in
       N.testbit b 2 = N.testbit a 2 /\ N.testbit b 0 = N.testbit a 0 /\ (c_track c = false -> N.testbit b 1 || N.testbit b 2 = true)) /\
    (c_source c = None -> has_fetched_all_stripes m = true)).
  { clear - Ep E2. unfold RemoteModel.prepare_stripe_server in Ep. destruct (_ && _) eqn:B; [discriminate|]. apply Ok_inj in Ep. subst ss. cbn [RemoteModel.ss_meta].
    split; [destruct (c_track c); reflexivity|]. split; [destruct (c_track c); cbn; rewrite ?map_length; auto|]. split.
    - intros st Hst. set (a := nth st (md_headers m) 0%N). destruct (c_track c); [split; [reflexivity|split; [reflexivity|discriminate]]|].
      cbn [RemoteModel.mark_no_source_stripes_written md_headers]. rewrite E2 in Hst.
      set (f := fun h0 => _). rewrite (nth_indep _ 0%N (f 0%N)) by (rewrite map_length; exact Hst). rewrite map_nth. fold a. unfold f.
      pose proof (OfflineProps.hf_source a) as Ea. unfold has_flag in Ea. destruct (N.land a FLAG_HAS_SOURCE =? 0)%N; cbn [negb] in Ea.
      + rewrite !N.lor_spec. change (N.testbit FLAG_WRITTEN 2) with false. change (N.testbit FLAG_WRITTEN 0) with false. change (N.testbit FLAG_WRITTEN 1) with true.
        rewrite !orb_false_r, orb_true_r. auto.
      + rewrite <- Ea. rewrite orb_true_r. auto.
    - intros E. rewrite E in B. destruct (has_fetched_all_stripes m); [reflexivity|discriminate]. }
  destruct Ms as (Ms1 & Ms2 & Ms3 & Ms4).
  assert (Rf : OfflineProps.reads_files k pad (reached k base h ([] ++ [ECrash pb pb])) (md_shift m) o).
  { intros st Hst. cbv zeta. rewrite Hod. destruct (Rd st ltac:(lia)) as (R1 & R2). destruct (Ms3 st Hst) as (M2 & M0 & _). rewrite M2, M0 in R2.
    rewrite Ms1 in *. rewrite <- E1 in R1, R2. replace (N.to_nat (512 * 2 ^ md_shift m)) with (ssc k * 512) by lia. split.
    - rewrite R1. f_equal. unfold stripe_at, disk_stripe. apply map_concat_ext. intros x Hx. apply In_st in Hx as (Hx & _); [|exact Hst].
      change (base x = pad (base x)). symmetry. apply pad_whole. now apply Dl.
    - intros T2 T0.
      assert (Ns : c_source c <> None).
      { intros E. specialize (Ms4 E). unfold has_fetched_all_stripes in Ms4. rewrite forallb_forall in Ms4.
        specialize (Ms4 (nth st (md_headers m) 0%N) ltac:(apply nth_In; lia)). cbv beta in Ms4.
        pose proof (OfflineProps.hf_source (nth st (md_headers m) 0%N)) as A2. pose proof (OfflineProps.hf_fetched (nth st (md_headers m) 0%N)) as A0. unfold has_flag in A2, A0.
        rewrite T2 in A2. rewrite T0 in A0. apply negb_true_iff in A2. rewrite A2, A0 in Ms4. discriminate. }
      rewrite (R2 T2 T0 Ns). f_equal. unfold stripe_at, source_stripe. apply map_concat_ext. intros x Hx. apply In_st in Hx as (Hx & Hq); [|exact Hst].
      rewrite <- (E6 Ns x). symmetry. apply pad_whole. specialize (Cl x Hx). unfold configured_contents in Cl. rewrite El in Cl. unfold initial_contents in Cl.
      rewrite Hq, OfflineProps.hf_source, OfflineProps.hf_fetched, E3, T2, T0 in Cl. destruct (Nat.ltb_spec st (nst k)); [exact Cl|lia]. }
  assert (Fr : track k = true -> OfflineSpec.fresh_disk pad k base h).
  { intros T x Hx H2 H1. rewrite E4 in T. rewrite pad_whole by now apply Dl. exact (Z T _ _ El x Hx H2 H1). }
  destruct (OfflineProps.C70_server k base h pad (md_shift m) WCk Whk pad_length Fr E1 Fs [] pb pb _ ss Es' o Rf) as (d & Hd & Hall).
  change (history k base h ([] ++ [ECrash pb pb])) with [@TCrash sector] in Hd.
  pose proof (idle_behaviour _ _ _ Hd) as Hcur.
  split; [rewrite Ms1; lia|]. split; [exact Ms2|]. intros st Hst. specialize (Hall st Hst). cbv zeta in Hall.
  assert (Esd : OfflineSpec.stripe_of_disk pad (ssc k) d st = stripe_at (configured_contents xts w c l) (ssc k) st).
  { unfold OfflineSpec.stripe_of_disk, stripe_at. apply map_concat_ext. intros x Hx. apply In_st in Hx as (Hx & _); [|exact Hst]. rewrite Hcur.
    specialize (Cl x Hx). unfold configured_contents in *. rewrite El in *. now apply pad_whole. }
  rewrite Esd in Hall. destruct Hall as [Hall|(H1 & _ & H2)]; [left; exact Hall|right]. split; [exact H1|]. split; [|exact H2].
  destruct (c_track c) eqn:T; [reflexivity|]. exfalso. destruct (Ms3 st Hst) as (_ & _ & M1). specialize (M1 eq_refl).
  unfold RemoteModel.remote_has_stripe in H1. destruct (Nat.leb_spec (length (md_headers (RemoteModel.ss_meta ss))) st); [lia|].
  rewrite (index_ok _ _ 0%N) in H1 by lia. cbn [bindr] in H1. apply Ok_inj in H1.
  change (has_flag FLAG_WRITTEN (nth st (md_headers (RemoteModel.ss_meta ss)) 0%N) || has_flag FLAG_HAS_SOURCE (nth st (md_headers (RemoteModel.ss_meta ss)) 0%N) = false) in H1.
  rewrite OfflineProps.hf_written, OfflineProps.hf_source in H1. congruence.
Qed.

Lemma lazy_iff : forall w (xts : xts_type) c blank l, source_matches w c -> launch w xts c blank = Ok l ->
  (c_metadata c = None -> l_lazy l = None) /\
  (c_metadata c <> None -> exists k h, l_lazy l = Some (k, h) /\ track k = c_track c /\ target k = length (file_of w (c_data c)) / 512).
Proof.
  intros w xts c blank l SM L. split.
  - intros Hp. unfold launch in L. apply bind_ok in L as ((d & kw) & B & L). apply build_ok in B as (data & D & B). rewrite Hp in B. destruct B as (-> & ->).
    cbn [fst snd] in L. apply Ok_inj in L. now subst l.
  - intros Hp. destruct (c_metadata c) as [p|] eqn:Ep; [|congruence]. destruct (start_of w xts c l blank p SM Ep L) as (k & h & El & St).
    exists k, h. split; [exact El|]. destruct (SetupProps.C55_options _ _ _ _ _ St) as (T & _ & Ta & _).
    split; [exact T|exact Ta].
Qed.

(** What the clients of a server may take for zeros stays zeros for life. *)
Lemma unused_for_life : forall (xts : xts_type) c blank w l ts w' l',
  source_matches w c -> whole_sectors w -> cipher_ok (cipher_of xts c) -> image_apart c ->
  launch w xts c blank = Ok l -> RestartProps.lazy_ready l -> in_whole_stripes l ->
  life xts c blank w ts w' -> launch w' xts c blank = Ok l' ->
  in_whole_stripes l' /\ (c_track c = true -> zeros_where_unused xts w c l -> zeros_where_unused xts w' c l').
Proof.
  intros xts c blank w l ts w' l' SM W K A L WC Wh H. revert l SM W L WC Wh.
  induction H as [w|w l0 g t0 w1 ts w2 L0 Lf Us St Hl IH]; intros l SM W L WC Wh L'.
  - rewrite L in L'. apply Ok_inj in L'. subst l'. auto.
  - rewrite L in L0. apply Ok_inj in L0. subst l0.
    destruct (comes_up w w1 xts c blank l g SM K A L WC Lf (RestartProps.contract _ _ _ _ _ _ _ SM W K L WC Us)) as (l1 & fin & L1 & Eb & WC1 & _ & _ & _ & C).
    destruct (RestartProps.left_source _ _ _ _ _ _ Lf) as (S1 & S2).
    destruct (lazy_iff w xts c blank l SM L) as (N0 & N1). destruct (lazy_iff w1 xts c blank l1 (S1 SM) L1) as (M0 & M1).
    assert (Wh1 : in_whole_stripes l1).
    { split.
      2: { intros E'. rewrite Eb. apply (proj2 Wh). destruct (c_metadata c); [|now apply N0]. destruct M1 as (k & h & E2 & _); [discriminate|]. congruence. }
      intros k' h' E'. destruct (c_metadata c) as [p|] eqn:Ep; [|rewrite M0 in E' by reflexivity; discriminate].
      destruct N1 as (k & h & El & _); [discriminate|]. destruct (C _ _ _ _ El E') as (C1 & C2 & C3 & _). rewrite C1, C2, C3. exact (proj1 Wh _ _ El). }
    destruct (IH l1 (S1 SM) (S2 W) L1 WC1 Wh1 L') as (I1 & I2). split; [exact I1|]. intros T Z. apply (I2 T).
    intros k' h' E' x Hx B2 B1. destruct (c_metadata c) as [p|] eqn:Ep; [|rewrite M0 in E' by reflexivity; discriminate].
    destruct N1 as (k & h & El & Tk & _); [discriminate|]. destruct (C _ _ _ _ El E') as (C1 & C2 & C3 & C4). rewrite C1 in *. rewrite C3 in Hx.
    rewrite <- OfflineProps.hf_source in B2. rewrite <- OfflineProps.hf_written in B1.
    assert (Hq : x / ssc k < nst k).
    { pose proof (wc_ssc _ _ (WC _ _ El)). apply Nat.div_lt_upper_bound; [lia|]. rewrite (proj1 Wh _ _ El) in Hx. lia. }
    destruct (C4 ltac:(congruence) x Hx Hq B1 B2) as (-> & D1 & D2). rewrite OfflineProps.hf_source in D2. rewrite OfflineProps.hf_written in D1.
    exact (Z _ _ El x Hx D2 D1).
Qed.

Lemma size_of : forall w (xts : xts_type) c blank l, launch w xts c blank = Ok l -> sector_count (l_bdev l) = length (file_of w (c_data c)) / 512.
Proof.
  intros w xts c blank l L. unfold launch in L. apply bind_ok in L as ((d & kw) & B & L). apply build_ok in B as (data & D & B). pose proof (device_count w xts _ _ _ _ D) as (_ & Cd).
  destruct (c_metadata c) as [p|].
  - destruct B as (meta & m' & im & _ & _ & -> & _ & ->). cbn [fst snd] in L. apply bind_ok in L as (r & _ & L). apply Ok_inj in L. subst l. exact Cd.
  - destruct B as (-> & ->). cbn [fst snd] in L. apply Ok_inj in L. subst l. exact Cd.
Qed.

(** A device without metadata is served in stripes of 2048 sectors. *)
Lemma server_plain : forall w (xts : xts_type) c blank l ss o,
  cipher_ok (cipher_of xts c) -> launch w xts c blank = Ok l -> c_metadata c = None ->
  sector_count (l_bdev l) mod N.to_nat 2048 = 0 ->
  stripe_server w xts c = Ok ss -> reads_device xts w c ss o ->
  let n := N.to_nat (2 ^ md_shift (RemoteModel.ss_meta ss)) in
  sector_count (l_bdev l) = length (md_headers (RemoteModel.ss_meta ss)) * n /\
  forall st, st < length (md_headers (RemoteModel.ss_meta ss)) ->
    RemoteModel.remote_has_stripe (md_headers (RemoteModel.ss_meta ss)) st = Ok true /\
    exists reply, RemoteModel.handle_read_stripe ss o (N.of_nat st) = Ok (reply, true) /\
      forall more, RemoteModel.client_fetch_stripe (Some (RemoteModel.ss_meta ss)) (reply ++ more) =
        RemoteModel.COk (stripe_at (configured_contents xts w c l) n st) more.
Proof.
  intros w xts c blank l ss o K L Hp Wh Es Rd.
  unfold launch in L. apply bind_ok in L as ((d & kw) & B & L). apply build_ok in B as (data & D & B). rewrite Hp in B. destruct B as (-> & ->).
  cbn [fst snd] in L. apply Ok_inj in L. subst l. cbn [l_bdev l_lazy] in *. pose proof (device_count w xts _ _ _ _ D) as (_ & Cd).
  unfold stripe_server in Es. apply bind_ok in Es as (disk & Hd & Es). apply (block_ok w xts) in Hd. pose proof (device_count w xts _ _ _ _ Hd) as (_ & Cd').
  rewrite Hp, Cd', <- Cd in Es. unfold RemoteModel.prepare_stripe_server in Es. apply Ok_inj in Es.
  change (Nat.pow 2 (N.to_nat RemoteModel.DEFAULT_SHIFT)) with (N.to_nat (2 ^ 11)) in Es.
  change (N.to_nat 2048) with (N.to_nat (2 ^ 11)) in Wh. set (s := sector_count data) in *. set (q := N.to_nat (2 ^ 11)) in *.
  assert (Hq : q = 2 * 1024) by (apply Nat2N.inj; unfold q; rewrite N2Nat.id; reflexivity). assert (Q0 : 0 < q) by lia.
  assert (Em : RemoteModel.ss_meta ss = current_metadata 11 (repeat 7%N (s / q))).
  { subst ss. cbn [RemoteModel.ss_meta]. unfold metadata_new. cbn [md_magic md_version_major md_version_minor md_shift md_headers].
    assert (Ed : div_ceil s q = s / q).
    { clearbody q. unfold div_ceil. pose proof (proj2 (Nat.div_exact s q ltac:(lia)) Wh) as Ex.
      symmetry. apply (Nat.div_unique _ q _ (q - 1)); lia. }
    rewrite Ed. unfold current_metadata. f_equal. clear. rewrite map_map. generalize (s / q). intros n.
    enough (H : forall m k, k + m <= n -> map (fun x => N.lor (if Nat.ltb x n then FLAG_HAS_SOURCE else 0%N) (N.lor FLAG_WRITTEN FLAG_FETCHED)) (seq k m) = repeat 7%N m) by (apply H; lia).
    induction m as [|m IH]; intros k Hk; [reflexivity|]. cbn [seq map repeat]. rewrite IH by lia. destruct (Nat.ltb_spec k n); [reflexivity|lia]. }
  unfold reads_device in Rd. rewrite Em in *. change (md_shift (current_metadata 11 _)) with 11%N in *.
  change (md_headers (current_metadata 11 (repeat 7%N (s / q)))) with (repeat 7%N (s / q)) in *. cbv zeta. fold q. fold q in Rd. rewrite repeat_length in *.
  split; [clearbody q; rewrite Nat.mul_comm; apply Nat.div_exact; [lia|exact Wh]|].
  intros st Hst. assert (Nx : nth st (repeat 7%N (s / q)) 0%N = 7%N).
  { assert (X : In (nth st (repeat 7%N (s / q)) 0%N) (repeat 7%N (s / q))) by (apply nth_In; now rewrite repeat_length). exact (repeat_spec _ _ _ X). }
  assert (Ix : index (repeat 7%N (s / q)) st = Ok 7%N) by (rewrite (index_ok _ _ 0%N) by (now rewrite repeat_length); now rewrite Nx).
  split.
  { unfold RemoteModel.remote_has_stripe. rewrite repeat_length. destruct (Nat.leb_spec (s / q) st); [lia|]. rewrite Ix. reflexivity. }
  destruct (Rd st Hst) as (R1 & _).
  set (m := current_metadata 11 (repeat 7%N (s / q))) in *.
  exists (fst (RemoteModel.data_reply m (Some (stripe_at (data_sector xts w c) q st)))). split.
  - unfold RemoteModel.handle_read_stripe. rewrite Em. unfold stripe_count. change (md_headers m) with (repeat 7%N (s / q)). rewrite repeat_length.
    destruct (N.leb_spec (N.of_nat (s / q)) (N.of_nat st)); [lia|].
    unfold RemoteModel.stripe_not_fetched, RemoteModel.stripe_has_data. change (md_headers m) with (repeat 7%N (s / q)). rewrite Nat2N.id, Ix. cbn [bindr].
    change (RemoteModel.flag FLAG_HAS_SOURCE 7 && negb (RemoteModel.flag FLAG_FETCHED 7)) with false. cbv iota.
    change (RemoteModel.flag FLAG_WRITTEN 7 || RemoteModel.flag FLAG_HAS_SOURCE 7 && RemoteModel.flag FLAG_FETCHED 7) with true. cbn [negb]. cbv iota.
    change (stripe_sector_count m mod 2 ^ 32)%N with (2 ^ 11)%N.
    replace (RemoteModel.stripe_len m) with (q * 512) by (unfold RemoteModel.stripe_len; change (MetadataModel.stripe_size m) with (2 ^ 11 * 512)%N; unfold q; lia).
    rewrite R1. reflexivity.
  - intros more. unfold configured_contents. cbn [l_lazy]. apply OfflineProps.data_reply_client; [|lia].
    replace (N.to_nat (512 * 2 ^ 11)) with (q * 512) by (unfold q; lia). unfold stripe_at.
    assert (Ls : forall k a, a + k <= s -> length (concat (map (data_sector xts w c) (seq a k))) = k * 512).
    { induction k as [|k IH]; intros a Ha; [reflexivity|]. cbn [seq map concat]. rewrite app_length, IH by lia. rewrite data_length; [lia|exact K|]. rewrite <- Cd. fold s. lia. }
    apply Ls. assert (s = q * (s / q)) by (apply Nat.div_exact; [lia|exact Wh]). clearbody q. nia.
Qed.

(** What any server on the device's files answers. *)
Lemma server_any : forall w (xts : xts_type) c blank l ss o,
  source_matches w c -> whole_sectors w -> cipher_ok (cipher_of xts c) -> launch w xts c blank = Ok l -> RestartProps.lazy_ready l ->
  in_whole_stripes l -> (c_track c = true -> zeros_where_unused xts w c l) ->
  stripe_server w xts c = Ok ss -> reads_device xts w c ss o ->
  let n := N.to_nat (2 ^ md_shift (RemoteModel.ss_meta ss)) in
  sector_count (l_bdev l) = length (md_headers (RemoteModel.ss_meta ss)) * n /\
  forall st, st < length (md_headers (RemoteModel.ss_meta ss)) ->
    (RemoteModel.remote_has_stripe (md_headers (RemoteModel.ss_meta ss)) st = Ok true /\
     exists reply, RemoteModel.handle_read_stripe ss o (N.of_nat st) = Ok (reply, true) /\
       forall more, RemoteModel.client_fetch_stripe (Some (RemoteModel.ss_meta ss)) (reply ++ more) =
         RemoteModel.COk (stripe_at (configured_contents xts w c l) n st) more) \/
    (RemoteModel.remote_has_stripe (md_headers (RemoteModel.ss_meta ss)) st = Ok false /\ c_track c = true /\
     stripe_at (configured_contents xts w c l) n st = repeat 0%N (n * 512)).
Proof.
  intros w xts c blank l ss o SM W K L WC Wh Z Es Rd n. destruct (lazy_iff w xts c blank l SM L) as (N0 & N1).
  destruct (c_metadata c) as [p|] eqn:Hp.
  - destruct N1 as (k & h & El & _ & T); [discriminate|].
    destruct (server_contents w xts c blank l k h ss o SM W K L WC El Wh Z Es Rd) as (E1 & E2 & E3). subst n. rewrite E1, E2. split; [|exact E3].
    rewrite <- (proj1 Wh _ _ El), T. exact (size_of _ _ _ _ _ L).
  - destruct (server_plain w xts c blank l ss o K L Hp (proj2 Wh (N0 eq_refl)) Es Rd) as (E1 & E2). split; [exact E1|]. intros st Hst. left. exact (E2 st Hst).
Qed.
