(** Proofs about setting a device up. *)
From Coq Require Import List Arith NArith ZArith Bool Lia ZifyBool ZifyNat ZifyN.
Import ListNotations.
From Verif Require Import Base BaseFacts MetadataModel MetadataProofs MetadataSpec LazyModel LazySpec LazyProps CryptModel CryptSpec CryptProps SetupModel SetupSpec.
From Verif Require ArchiveModel ArchiveProofs RemoteModel RemoteProps.
Local Open Scope nat_scope.
Ltac Zify.zify_post_hook ::= Z.div_mod_to_equations.


(** ** Sources *)

Lemma max_stripe_id_spec : forall m : ArchiveModel.content_map,
  (forall i, In i (map fst m) -> i <= ArchiveModel.max_stripe_id m) /\
  (m <> [] -> In (ArchiveModel.max_stripe_id m) (map fst m)).
Proof.
  induction m as [|e m [IH1 IH2]]; [split; [intros i []|congruence]|].
  cbn [ArchiveModel.max_stripe_id fold_right map]. fold (ArchiveModel.max_stripe_id m). split.
  - intros i [<-|Hi]; [lia|]. specialize (IH1 i Hi). lia.
  - intros _. destruct m as [|e' m'].
    + left. cbn. lia.
    + specialize (IH2 ltac:(discriminate)).
      destruct (Nat.max_dec (fst e) (ArchiveModel.max_stripe_id (e' :: m'))) as [->| ->]; [now left|now right].
Qed.

Lemma has_stripe_spec : forall a st, ArchiveModel.has_stripe a st = true <-> In st (map fst (ArchiveModel.s_map a)).
Proof.
  intros a st. unfold ArchiveModel.has_stripe. split.
  - destruct (ArchiveModel.map_get _ st) eqn:E; [|discriminate]. intros _.
    apply ArchiveProofs.map_get_In in E. apply in_map_iff. eexists. split; [|exact E]. reflexivity.
  - intros H. induction (ArchiveModel.s_map a) as [|[k v] m IH]; [destruct H|].
    cbn. destruct (k =? st) eqn:E; [reflexivity|]. apply IH. destruct H as [H|H]; [|exact H].
    cbn in H. apply Nat.eqb_neq in E. contradiction.
Qed.

Lemma flag_testbit : forall h k, negb (N.land h (2 ^ k) =? 0)%N = N.testbit h k.
Proof.
  intros h k. destruct (N.testbit h k) eqn:E.
  - apply negb_true_iff, N.eqb_neq. intro H0.
    assert (N.testbit (N.land h (2 ^ k)) k = true)
      by (rewrite N.land_spec, E, N.pow2_bits_true; reflexivity).
    rewrite H0, N.bits_0 in H. discriminate.
  - apply negb_false_iff, N.eqb_eq. apply N.bits_inj. intro j.
    rewrite N.land_spec, N.bits_0. destruct (N.eq_dec k j) as [->|Hne].
    + rewrite E. reflexivity.
    + rewrite N.pow2_bits_false by exact Hne. apply andb_false_r.
Qed.

Section Source.
Context {V : Type}.

(** What a successfully built source is. *)
Record source_is (s : stripe_source V) (ssc n : nat) (has : nat -> bool) : Prop := {
  si_has : forall st, has st = true <-> source_holds s ssc st;
  si_raw : forall k img cor, s = SrcRaw k img cor -> n = k;
  si_none : s = SrcNone -> n = 0;
  si_upper : whole_stripes s = true -> forall st, source_holds s ssc st -> (st + 1) * ssc <= n;
  si_exact : whole_stripes s = true -> n = 0 \/ exists st, source_holds s ssc st /\ n = (st + 1) * ssc }.

Lemma remote_holds : forall m st,
  (match RemoteModel.remote_has_stripe (md_headers m) st with Ok b => b | _ => false end) = true <->
  st < length (md_headers m) /\
  (N.testbit (nth st (md_headers m) 0%N) 1 = true \/ N.testbit (nth st (md_headers m) 0%N) 2 = true).
Proof.
  intros m st. unfold RemoteModel.remote_has_stripe. destruct (length (md_headers m) <=? st) eqn:E.
  - apply Nat.leb_le in E. split; [discriminate|]. lia.
  - apply Nat.leb_gt in E. rewrite (index_ok _ _ 0%N) by exact E. cbn [bindr].
    unfold RemoteModel.flag. change FLAG_WRITTEN with (2 ^ 1)%N. change FLAG_HAS_SOURCE with (2 ^ 2)%N.
    rewrite !flag_testbit, orb_true_iff. tauto.
Qed.

Lemma remote_size : forall m n, RemoteModel.remote_sector_count m = Ok n ->
  (forall st, (match RemoteModel.remote_has_stripe (md_headers m) st with Ok b => b | _ => false end) = true ->
     (N.of_nat st + 1) * stripe_sector_count m <= n)%N /\
  (n = 0%N \/ exists st, (match RemoteModel.remote_has_stripe (md_headers m) st with Ok b => b | _ => false end) = true /\
     n = ((N.of_nat st + 1) * stripe_sector_count m)%N).
Proof.
  intros m n H. unfold RemoteModel.remote_sector_count in H.
  set (p := fun h => negb (N.land h (N.lor FLAG_WRITTEN FLAG_HAS_SOURCE) =? 0)%N) in *.
  assert (P : forall h, p h = N.testbit h 1 || N.testbit h 2).
  { intros h. unfold p. rewrite <- !flag_testbit. rewrite N.land_lor_distr_r.
    change FLAG_WRITTEN with (2 ^ 1)%N. change FLAG_HAS_SOURCE with (2 ^ 2)%N.
    destruct (N.land h (2 ^ 1) =? 0)%N eqn:A, (N.land h (2 ^ 2) =? 0)%N eqn:B; cbn [negb orb].
    - apply N.eqb_eq in A, B. rewrite A, B. reflexivity.
    - apply negb_true_iff, N.eqb_neq. intros C. apply N.lor_eq_0_iff in C. apply N.eqb_neq in B. tauto.
    - apply negb_true_iff, N.eqb_neq. intros C. apply N.lor_eq_0_iff in C. apply N.eqb_neq in A. tauto.
    - apply negb_true_iff, N.eqb_neq. intros C. apply N.lor_eq_0_iff in C. apply N.eqb_neq in A. tauto. }
  assert (R : forall st, (match RemoteModel.remote_has_stripe (md_headers m) st with Ok b => b | _ => false end) = true
              <-> exists h, nth_error (md_headers m) st = Some h /\ p h = true).
  { intros st. rewrite remote_holds. split.
    - intros (L & T). exists (nth st (md_headers m) 0%N). split; [apply nth_error_nth'; exact L|]. rewrite P.
      apply orb_true_iff. exact T.
    - intros (h & N1 & Ph). rewrite (nth_error_nth _ _ 0%N N1). rewrite P in Ph. apply orb_true_iff in Ph.
      split; [|exact Ph]. apply nth_error_Some. congruence. }
  pose proof (RemoteProps.rposition_spec _ p (md_headers m)) as S. destruct (RemoteModel.rposition p (md_headers m)) as [k|].
  - destruct S as (_ & K & A). destruct (_ <? 2 ^ 64)%N; [|discriminate].
    apply Ok_inj in H. subst n. split.
    + intros i Hi. apply R in Hi as (h & N1 & Ph).
      assert (i <= k)%nat by (destruct (Nat.le_gt_cases i k); auto; rewrite (A i h) in Ph; auto; discriminate).
      apply N.mul_le_mono_r. lia.
    + right. exists k. split; auto. apply R. exact K.
  - split.
    + intros i Hi. apply R in Hi as (h & N1 & Ph). rewrite (S i h N1) in Ph. discriminate.
    + left. destruct (_ <? 2 ^ 64)%N; [|discriminate]. apply Ok_inj in H. lia.
Qed.

Lemma build_source_ok : forall (s : stripe_source V) shift sectors, source_usable s shift sectors ->
  exists n has, build_source s (N.to_nat (2 ^ shift)) false = Ok (n, has) /\ source_is s (N.to_nat (2 ^ shift)) n has.
Proof.
  intros s shift sectors U. destruct s as [|k img cor|a d|m d]; cbn [build_source].
  - eexists _, _. split; [reflexivity|]. split; cbn; try congruence; try discriminate; auto.
    intros st. split; [|intros []]. intros H. discriminate.
  - eexists _, _. split; [reflexivity|]. split; cbn; try congruence; try discriminate.
    intros st. apply Nat.ltb_lt.
  - eexists _, _. split; [reflexivity|]. cbn in U.
    pose proof (max_stripe_id_spec (ArchiveModel.s_map a)) as [M1 M2].
    split; try discriminate.
    + intros st. cbn. apply has_stripe_spec.
    + intros _ st Hst. cbn [source_holds] in Hst. unfold ArchiveModel.source_sector_count. rewrite U.
      destruct (ArchiveModel.s_map a) as [|e l] eqn:E; [destruct Hst|]. specialize (M1 _ Hst).
      rewrite N2Nat.inj_mul, Nat2N.id. apply Nat.mul_le_mono_r. lia.
    + intros _. cbn [source_holds]. unfold ArchiveModel.source_sector_count. rewrite U.
      destruct (ArchiveModel.s_map a) as [|e l] eqn:E; [left; reflexivity|]. right. exists (ArchiveModel.max_stripe_id (e :: l)).
      split; [apply M2; discriminate|]. rewrite N2Nat.inj_mul, Nat2N.id. reflexivity.
  - destruct U as (U1 & U2).
    assert (S : stripe_sector_count m = (2 ^ shift)%N) by (unfold stripe_sector_count; rewrite N.shiftl_1_l, U1; reflexivity).
    rewrite S, N2Nat.id, N.eqb_refl. cbn [negb].
    assert (Z : exists n, RemoteModel.remote_sector_count m = Ok n).
    { unfold RemoteModel.remote_sector_count. rewrite S.
      match goal with |- context [RemoteModel.rposition ?p ?l] => pose proof (RemoteProps.rposition_spec _ p l) as R; destruct (RemoteModel.rposition p l) as [k|] end.
      - destruct R as (R & _). eexists.
        replace ((N.of_nat k + 1) * 2 ^ shift <? 2 ^ 64)%N with true; [reflexivity|]. symmetry. apply N.ltb_lt.
        eapply N.le_lt_trans; [|exact U2]. apply N.mul_le_mono_r. lia.
      - eexists. reflexivity. }
    destruct Z as (n & Z). rewrite Z. cbn [bindr]. eexists _, _. split; [reflexivity|].
    pose proof (remote_size m n Z) as (A & B). rewrite S in A, B.
    split; try discriminate.
    + intros st. apply remote_holds.
    + intros _ st Hst. apply remote_holds in Hst. specialize (A st Hst). lia.
    + intros _. destruct B as [B|(st & B1 & B2)]; [left; lia|]. right. exists st. split; [apply remote_holds; exact B1|].
      rewrite B2. lia.
Qed.

Lemma fits_iff : forall (s : stripe_source V) ssc n has sectors, source_is s ssc n has ->
  (source_fits s ssc sectors <-> n <= sectors).
Proof.
  intros s ssc n has sectors [H1 H2 H3 H4 H5].
  destruct s as [|k img cor|a d|m d].
  - cbn. rewrite H3 by reflexivity. split; [lia|]. intros _ st [].
  - cbn. rewrite (H2 _ _ _ eq_refl). reflexivity.
  - unfold source_fits. specialize (H4 eq_refl). specialize (H5 eq_refl). split.
    + intros F. destruct H5 as [->|(st & S1 & ->)]; [lia|]. apply F. exact S1.
    + intros L st Hst. specialize (H4 st Hst). lia.
  - unfold source_fits. specialize (H4 eq_refl). specialize (H5 eq_refl). split.
    + intros F. destruct H5 as [->|(st & S1 & ->)]; [lia|]. apply F. exact S1.
    + intros L st Hst. specialize (H4 st Hst). lia.
Qed.

End Source.

(** ** Saving and loading *)

Lemma cipher_roundtrip : forall k buf sectors img, cipher_ok k -> length buf = sectors * 512 ->
  encrypt k buf sectors = Ok img -> length img = length buf /\ decrypt k img sectors = Ok buf.
Proof.
  intros [[enc dec]|] buf sectors img K L E; cbn in *.
  - destruct (C21_encrypt_then_decrypt enc dec buf 0 sectors K) as (c & E1 & E2); [lia|].
    rewrite E1 in E. apply Ok_inj in E. subst c. split; [|exact E2].
    destruct K as (K1 & K2 & K3). destruct (C21_sector_uses_its_own_tweak enc buf 0 sectors K2) as (c & E3 & L3 & _); [lia|].
    rewrite E1 in E3. apply Ok_inj in E3. subst c. exact L3.
  - apply Ok_inj in E. subst img. auto.
Qed.

Lemma encrypt_total : forall k buf sectors, cipher_ok k -> length buf = sectors * 512 ->
  exists img, encrypt k buf sectors = Ok img.
Proof.
  intros [[enc dec]|] buf sectors K L; cbn in *; [|eexists; reflexivity].
  destruct (C21_encrypt_then_decrypt enc dec buf 0 sectors K) as (c & E1 & E2); [lia|]. exists c. exact E1.
Qed.

Lemma metadata_size_sectors : forall m, metadata_size m = 512 * (1 + stripe_header_sector_count m).
Proof. intros m. unfold metadata_size. consts. lia. Qed.

Lemma write_front : forall m, meta_wf m ->
  exists front, write_to_buf m (repeat 0%N (metadata_size m)) = Ok front /\ length front = metadata_size m /\
    forall rest, length rest mod 512 = 0 -> from_bytes (front ++ rest) = Ok m.
Proof.
  intros m H. exists (encoded m). pose proof (encoded_length m H) as HE.
  split; [|split; [exact HE|]].
  - rewrite (write_to_buf_ok m) by (auto; rewrite repeat_length; lia).
    rewrite skipn_all2 by (rewrite repeat_length; lia). rewrite app_nil_r. reflexivity.
  - intros rest Hr. destruct (roundtrip m (repeat 0%N (metadata_size m) ++ rest)) as (b & R1 & _ & _ & R4); auto.
    + rewrite app_length, repeat_length. lia.
    + rewrite app_length, repeat_length. rewrite metadata_size_sectors. lia.
    + rewrite (write_to_buf_ok m) in R1 by (auto; rewrite app_length, repeat_length; lia).
      apply Ok_inj in R1. rewrite skipn_app, repeat_length, Nat.sub_diag, skipn_all2 in R1 by (rewrite repeat_length; lia).
      cbn [app skipn] in R1. subst b. exact R4.
Qed.

Lemma save_load : forall k m sectors img, meta_wf m -> cipher_ok k -> save_image k m sectors = Ok img ->
  length img = sectors * 512 /\ load_image k img = Ok m.
Proof.
  intros k m sectors img W K E. unfold save_image in E. consts.
  destruct (N.of_nat sectors <? 2 ^ 32)%N eqn:E0; [|discriminate]. cbn [negb] in E.
  destruct (sectors * 512 <? metadata_size m) eqn:E1; [discriminate|]. apply Nat.ltb_ge in E1.
  destruct (write_front m W) as (front & F1 & F2 & F3). rewrite F1 in E. cbn [bindr] in E.
  assert (L : length (front ++ repeat 0%N (sectors * 512 - metadata_size m)) = sectors * 512)
    by (rewrite app_length, repeat_length; lia).
  destruct (cipher_roundtrip _ _ _ _ K L E) as (L2 & D).
  split; [lia|]. unfold load_image, open_device. consts. rewrite L2, L.
  replace (sectors * 512 mod 512) with 0 by (symmetry; apply Nat.mod_mul; lia). cbn [Nat.eqb negb bindr].
  rewrite Nat.div_mul by lia. rewrite E0. cbn [negb]. rewrite D. cbn [bindr].
  apply F3. rewrite repeat_length. rewrite metadata_size_sectors. pose proof (metadata_size_sectors m). lia.
Qed.

Lemma save_total : forall k m sectors, meta_wf m -> cipher_ok k -> (N.of_nat sectors < 2 ^ 32)%N ->
  metadata_size m <= sectors * 512 -> exists img, save_image k m sectors = Ok img.
Proof.
  intros k m sectors W K L S. unfold save_image. consts.
  replace (N.of_nat sectors <? 2 ^ 32)%N with true by (symmetry; apply N.ltb_lt; exact L). cbn [negb].
  replace (sectors * 512 <? metadata_size m) with false by (symmetry; apply Nat.ltb_ge; exact S).
  destruct (write_front m W) as (front & F1 & F2 & F3). rewrite F1. cbn [bindr].
  apply encrypt_total; auto. rewrite app_length, repeat_length. lia.
Qed.

(** ** Initialising and starting *)

Definition fresh_headers (has : nat -> bool) (n : nat) : list byte :=
  map (fun i => if has i then FLAG_HAS_SOURCE else 0%N) (seq 0 n).

Lemma fresh_headers_length : forall has n, length (fresh_headers has n) = n.
Proof. intros. unfold fresh_headers. rewrite map_length, seq_length. reflexivity. Qed.

Lemma fresh_headers_nth : forall has n st, st < n ->
  nth st (fresh_headers has n) 0%N = if has st then FLAG_HAS_SOURCE else 0%N.
Proof.
  intros has n st H. unfold fresh_headers.
  rewrite (nth_indep _ 0%N ((fun i => if has i then FLAG_HAS_SOURCE else 0%N) 0)) by (rewrite map_length, seq_length; exact H).
  rewrite (map_nth (fun i => if has i then FLAG_HAS_SOURCE else 0%N)), seq_nth by exact H. reflexivity.
Qed.

Lemma fresh_fetched_all : forall shift has n,
  has_fetched_all_stripes (current_metadata shift (fresh_headers has n)) = true <-> forall st, st < n -> has st = false.
Proof.
  intros shift has n. unfold has_fetched_all_stripes. cbn [md_headers current_metadata]. rewrite forallb_forall. split.
  - intros H st Hst. specialize (H (nth st (fresh_headers has n) 0%N) ltac:(apply nth_In; rewrite fresh_headers_length; exact Hst)).
    rewrite fresh_headers_nth in H by exact Hst. destruct (has st); [discriminate|reflexivity].
  - intros H x Hx. unfold fresh_headers in Hx. apply in_map_iff in Hx as (i & <- & Hi). apply in_seq in Hi.
    rewrite H by lia. reflexivity.
Qed.

Section Start.
Context {V : Type}.
Variable su : setup V.

Lemma ssc_pos : forall shift, 0 < N.to_nat (2 ^ shift).
Proof. intros shift. assert (2 ^ shift <> 0)%N by (apply N.pow_nonzero; discriminate). lia. Qed.

Lemma fresh_ok : forall shift sectors, open_device (su_disk su) = Ok sectors -> source_usable (su_source su) shift sectors ->
  exists n has, source_is (su_source su) (N.to_nat (2 ^ shift)) n has /\
    build_source (su_source su) (N.to_nat (2 ^ shift)) false = Ok (n, has) /\
    fresh_metadata su shift = Ok (current_metadata shift (fresh_headers has (div_ceil sectors (N.to_nat (2 ^ shift))))).
Proof.
  intros shift sectors D U. destruct (build_source_ok _ _ _ U) as (n & has & B & S).
  exists n, has. split; [exact S|]. split; [exact B|]. unfold fresh_metadata. rewrite D. cbn [bindr].
  rewrite N.shiftl_1_l.
  destruct (su_source su); try (rewrite B; reflexivity).
  cbn in B. apply Ok_inj in B. unfold null_source, bdev_source in B. injection B as <- <-. reflexivity.
Qed.

Lemma fresh_wf : forall shift has n, (shift <= 16)%N -> (N.of_nat n < 2 ^ 32)%N -> meta_wf (current_metadata shift (fresh_headers has n)).
Proof. intros shift has n Hs Hn. unfold meta_wf. cbn [md_magic md_version_major md_version_minor md_shift md_headers current_metadata].
  rewrite fresh_headers_length. repeat split; auto. lia. Qed.

(** The device started from fresh metadata. *)
Lemma start_fresh : forall shift sectors n has file blank,
  open_device (su_disk su) = Ok sectors -> source_is (su_source su) (N.to_nat (2 ^ shift)) n has ->
  build_source (su_source su) (N.to_nat (2 ^ shift)) false = Ok (n, has) ->
  source_usable (su_source su) shift sectors ->
  load_image (su_cipher su) file = Ok (current_metadata shift (fresh_headers has (div_ceil sectors (N.to_nat (2 ^ shift))))) ->
  (n <= sectors \/ (forall st, st * N.to_nat (2 ^ shift) < sectors -> has st = false) ->
   exists c h, start su blank file = Ok (c, h) /\ well_configured c h /\ target c = sectors /\
     ssc c = N.to_nat (2 ^ shift) /\
     overlaid su (N.to_nat (2 ^ shift)) sectors (initial_contents c (su_base su) h)) /\
  (~ n <= sectors -> (exists st, st * N.to_nat (2 ^ shift) < sectors /\ has st = true) -> is_err (start su blank file) = true).
Proof.
  intros shift sectors n has file blank D S B U L.
  set (k := N.to_nat (2 ^ shift)) in *. pose proof (ssc_pos shift) as Hk. fold k in Hk.
  set (ns := div_ceil sectors k) in *.
  assert (NS : forall st, st < ns <-> st * k < sectors).
  { intros st. split; [apply div_ceil_lt; exact Hk|]. intros H. pose proof (div_ceil_ge sectors k Hk). fold ns in H0.
    assert (st * k < ns * k) by lia. apply Nat.mul_lt_mono_pos_r in H1; auto. }
  assert (E : stripe_sector_count (current_metadata shift (fresh_headers has ns)) = (2 ^ shift)%N)
    by (unfold stripe_sector_count; rewrite N.shiftl_1_l; reflexivity).
  unfold start. rewrite D. cbn [bindr]. rewrite L. cbn [bindr]. rewrite E. fold k.
  assert (FF : forall x, has_flag FLAG_FETCHED (nth x (fresh_headers has ns) 0%N) = false).
  { intros x. destruct (Nat.lt_ge_cases x ns) as [Hx|Hx].
    - rewrite fresh_headers_nth by exact Hx. destruct (has x); reflexivity.
    - rewrite nth_overflow by (rewrite fresh_headers_length; exact Hx). reflexivity. }
  assert (HF : forall x, has_flag FLAG_HAS_SOURCE (nth x (fresh_headers has ns) 0%N) = true <-> x < ns /\ has x = true).
  { intros x. destruct (Nat.lt_ge_cases x ns) as [Hx|Hx].
    - rewrite fresh_headers_nth by exact Hx. destruct (has x); cbn; intuition congruence.
    - rewrite nth_overflow by (rewrite fresh_headers_length; exact Hx). split; [discriminate|lia]. }
  assert (XS : forall x, x < sectors -> x / k < ns).
  { intros x Hx. apply NS. pose proof (Nat.mul_div_le x k ltac:(lia)). lia. }
  (* the device, whatever the size [n'] of the source that was built *)
  assert (G : forall n', n' <= sectors ->
     (forall x, x < sectors -> has (x / k) = true -> x < n' \/ whole_stripes (su_source su) = true) ->
     let c := mk_cfg k ns STRIPE_HEADERS_PER_SECTOR sectors n' (whole_stripes (su_source su)) (source_data su (su_source su)) blank
                (su_track su) (reads_image (su_source su)) (su_autofetch su) in
     let h := fun st => nth st (fresh_headers has ns) 0%N in
     well_configured c h /\ overlaid su k sectors (initial_contents c (su_base su) h)).
  { intros n' Hn' Hc c h. split.
    - split; subst c h; cbn [LazyModel.ssc LazyModel.nst LazyModel.hps LazyModel.target LazyModel.src LazyModel.full_stripes LazyModel.has_image].
      + exact Hk.
      + consts. lia.
      + intros st Hst. apply NS. exact Hst.
      + exact Hn'.
      + apply div_ceil_le; [exact Hk|]. pose proof (div_ceil_ge sectors k Hk). fold ns in H. lia.
      + intros x Hx _ Hf. apply HF in Hf as (_ & Hf). destruct (Hc x Hx Hf) as [Y|Y]; [left; exact Y|right].
        split; [exact Y|]. destruct (su_source su); try discriminate Y; reflexivity.
      + intros st _ Hf. rewrite FF in Hf. discriminate.
    - intros x Hx. subst c h. unfold initial_contents. cbn [LazyModel.ssc LazyModel.nst LazyModel.image].
      rewrite FF. cbn [negb]. rewrite andb_true_r.
      replace (x / k <? ns) with true by (symmetry; apply Nat.ltb_lt, XS, Hx). cbn [andb].
      pose proof (HF (x / k)) as HFx. pose proof (si_has _ _ _ _ S (x / k)) as HS.
      destruct (has_flag FLAG_HAS_SOURCE _); split; intros Y.
      + destruct (su_source su); cbn in *; try reflexivity. contradiction.
      + exfalso. apply Y. apply HS. apply HFx. reflexivity.
      + exfalso. apply HS in Y. assert (false = true) by (apply HFx; split; [apply XS; exact Hx|exact Y]). discriminate.
      + reflexivity. }
  destruct (has_fetched_all_stripes (current_metadata shift (fresh_headers has ns))) eqn:A.
  - (* nothing to fetch *)
    pose proof (proj1 (fresh_fetched_all shift has ns) A) as A'.
    split.
    + intros _. unfold build_source. cbn [bindr null_source bdev_source fst].
      cbn [current_metadata md_headers]. rewrite fresh_headers_length.
      replace (ns <? div_ceil 0 k) with false
        by (symmetry; apply Nat.ltb_ge; pose proof (div_ceil_le 0 k 0 Hk ltac:(lia)); lia).
      replace (sectors <? 0) with false by (symmetry; apply Nat.ltb_ge; lia).
      eexists _, _. split; [reflexivity|].
      destruct (G 0 ltac:(lia)) as (G1 & G2).
      { intros x Hx Hh. rewrite A' in Hh by (apply XS; exact Hx). discriminate. }
      split; [exact G1|]. split; [reflexivity|]. split; [reflexivity|]. exact G2.
    + intros _ (st & Hst & Hh). apply NS in Hst. rewrite A' in Hh by exact Hst. discriminate.
  - rewrite B. cbn [bindr fst]. cbn [current_metadata md_headers]. rewrite fresh_headers_length.
    split.
    + intros [Hn|Hn].
      2:{ exfalso. assert (true = false); [|discriminate]. rewrite <- A. symmetry. apply fresh_fetched_all.
          intros st Hst. apply Hn, NS, Hst. }
      replace (ns <? div_ceil n k) with false
        by (symmetry; apply Nat.ltb_ge; apply div_ceil_le; [exact Hk|]; pose proof (div_ceil_ge sectors k Hk); fold ns in H; lia).
      replace (sectors <? n) with false by (symmetry; apply Nat.ltb_ge; lia).
      eexists _, _. split; [reflexivity|].
      destruct (G n Hn) as (G1 & G2).
      { intros x Hx Hh. destruct (su_source su) as [|r img cor|a d|m d] eqn:ES; try (right; reflexivity).
        - exfalso. apply (si_has _ _ _ _ S) in Hh. exact Hh.
        - left. pose proof (si_raw _ _ _ _ S r img cor eq_refl) as ->. apply (si_has _ _ _ _ S) in Hh. cbn in Hh.
          cbn in U. fold k in U. destruct U as [U|U]; [|lia].
          pose proof (Nat.mul_succ_div_gt x k ltac:(lia)).
          apply Nat.mod_divides in U as (q & ->); [|lia].
          assert (x / k < q) by (apply (Nat.mul_lt_mono_pos_l k); lia).
          assert (k * Datatypes.S (x / k) <= k * q) by (apply Nat.mul_le_mono_l; lia). lia. }
      split; [exact G1|]. split; [reflexivity|]. split; [reflexivity|]. exact G2.
    + intros Hn _. destruct (ns <? div_ceil n k); [reflexivity|].
      replace (sectors <? n) with true by (symmetry; apply Nat.ltb_lt; lia). reflexivity.
Qed.

(** What a successful run of init-metadata did. *)
Lemma init_inv : forall io umask shift p seen, init_metadata su io umask shift p = (seen, Ok tt) ->
  (6 <= shift <= 16)%N /\ exists m sectors mode image rest,
    fresh_metadata su shift = Ok m /\
    ensure_metadata_file io umask p (metadata_size m) = (rest, Ok tt) /\
    open_device (length (content_of (hd p rest))) = Ok sectors /\
    save_image (su_cipher su) m sectors = Ok image /\ mode = mode_of (hd p rest) /\
    seen = NFile mode image :: rest.
Proof.
  intros io umask shift p seen H. unfold init_metadata in H.
  destruct ((SHIFT_MIN <=? shift) && (shift <=? SHIFT_MAX))%N eqn:ES; [|discriminate]. cbn [negb] in H.
  split. { apply andb_true_iff in ES as (E1 & E2). apply N.leb_le in E1, E2. unfold SHIFT_MIN, SHIFT_MAX in *. lia. }
  destruct (fresh_metadata su shift) as [m| |]; try discriminate.
  destruct (ensure_metadata_file io umask p (metadata_size m)) as [rest [u| |]] eqn:EE; try discriminate.
  destruct (open_device (length (content_of (hd p rest)))) as [sectors| |] eqn:EO; try discriminate.
  destruct (save_image (su_cipher su) m sectors) as [image| |] eqn:EI; try discriminate.
  destruct (io 6); [|discriminate]. cbn [negb] in H. destruct (io 7); [|discriminate]. cbn [negb] in H.
  assert (E : NFile (mode_of (hd p rest)) image :: rest = seen) by congruence. subst seen.
  destruct u. exists m, sectors, (mode_of (hd p rest)), image, rest. repeat split; auto.
Qed.

End Start.

(** ** Interrupted initialisation *)

Lemma sector0 : forall buf, sector_at buf 0 = firstn 512 buf.
Proof. intros buf. unfold sector_at. consts. reflexivity. Qed.

Lemma same_front : forall a b, firstn 512 a = firstn 512 b -> length a = length b -> 512 <= length a ->
  (forall n, n <= 512 -> firstn n a = firstn n b) /\ nth 13 a 0%N = nth 13 b 0%N /\
  firstn 2 (skipn 9 a) = firstn 2 (skipn 9 b) /\ firstn 2 (skipn 11 a) = firstn 2 (skipn 11 b) /\ header_count a = header_count b.
Proof.
  intros a b E L M.
  assert (F : forall n, n <= 512 -> firstn n a = firstn n b).
  { intros n Hn. pose proof (f_equal (firstn n) E) as G. rewrite !firstn_firstn in G. rewrite Nat.min_l in G by lia. exact G. }
  assert (K : forall i n, i + n <= 512 -> firstn n (skipn i a) = firstn n (skipn i b)).
  { intros i n H. rewrite !firstn_skipn_comm. rewrite (F (i + n)) by lia. reflexivity. }
  repeat split; auto.
  - pose proof (f_equal (fun l => nth 13 l 0%N) E) as G. cbv beta in G.
    rewrite !nth_firstn in G by lia. exact G.
  - apply K. lia.
  - apply K. lia.
  - unfold header_count. f_equal. apply K. lia.
Qed.

Lemma mixed_load : forall buf new m, length buf = length new -> from_bytes new = Ok m ->
  (forall s, s * 512 < length new -> sector_at buf s = sector_at new s \/ crc_ok (sector_at buf s) = false) ->
  from_bytes buf = Ok m \/ is_err (from_bytes buf) = true.
Proof.
  intros buf new m L E H. apply from_bytes_ok_inv in E as (OK & ->).
  pose proof (from_bytes_exact buf) as (F1 & F2).
  destruct (image_ok buf) eqn:OB; [|destruct (F2 eq_refl) as (t & ->); right; reflexivity].
  left. rewrite (F1 eq_refl). pose proof OB as OB'. pose proof (decoded_headers_length buf OB) as (DL & DD). unfold image_ok in OB. rewrite !andb_true_iff in OB.
  destruct OB as [[[[[[[[H1 H2] H3] H4] H5] H6] H7] H8] H9].
  apply Nat.leb_le in H1. apply Nat.eqb_eq in H2.
  assert (S0 : sector_at buf 0 = sector_at new 0) by (destruct (H 0 ltac:(lia)); [assumption|congruence]).
  rewrite !sector0 in S0. destruct (same_front buf new S0 L H1) as (_ & N13 & _ & _ & HC).
  f_equal. f_equal; [exact N13|]. unfold decoded_headers. rewrite <- HC. f_equal.
  rewrite groups_ok_spec in H9.
  rewrite !flat_map_concat_map. f_equal. apply map_ext_in. intros g Hg. apply in_seq in Hg.
  unfold group_data. f_equal. 
  assert (Hg2 : S g * 512 < length new) by (pose proof (Nat.mul_div_le (length buf) 512 ltac:(lia)); lia).
  destruct (H (S g) Hg2) as [X|X].
  - exact X.
  - rewrite H9 in X by lia. discriminate.
Qed.

Lemma sector_of_at : forall buf s, sector_of buf s = sector_at buf s.
Proof. intros buf s. unfold sector_of, sector_at. consts. f_equal. f_equal. lia. Qed.

Lemma decrypt_sectors : forall k f sectors, cipher_ok k -> length f = sectors * 512 ->
  exists buf, decrypt k f sectors = Ok buf /\ length buf = length f /\
    forall s, s < sectors -> sector_of buf s = seen_sector k f s.
Proof.
  intros [[enc dec]|] f sectors K L; cbn [decrypt cipher_ok seen_sector] in *.
  - destruct K as (K1 & K2 & K3). destruct (C21_sector_uses_its_own_tweak dec f 0 sectors K3) as (b & E & LB & S1 & _); [lia|].
    exists b. split; [exact E|]. split; [exact LB|]. intros s Hs. rewrite S1 by exact Hs. reflexivity.
  - exists f. auto.
Qed.

Lemma interrupted : forall k before image f m, cipher_ok k -> load_image k image = Ok m -> torn before image f ->
  (forall s, s * 512 < length image -> unsealed (seen_sector k before s)) ->
  load_image k f = Ok m \/ is_err (load_image k f) = true.
Proof.
  intros k before image f m K LI (T1 & T2 & T3) U.
  unfold load_image, open_device in *. consts. rewrite T2.
  destruct (length image mod 512 =? 0) eqn:EM; [|discriminate]. cbn [negb bindr] in *. apply Nat.eqb_eq in EM.
  destruct (N.of_nat (length image / 512) <? 2 ^ 32)%N; [|discriminate]. cbn [negb] in *.
  set (n := length image / 512) in *.
  assert (LN : length image = n * 512) by (unfold n; rewrite Nat.mul_comm; apply Nat.div_exact; lia).
  destruct (decrypt_sectors k image n K LN) as (new & D1 & D2 & D3).
  destruct (decrypt_sectors k f n K ltac:(lia)) as (buf & D1' & D2' & D3').
  rewrite D1 in LI. rewrite D1'. cbn [bindr] in *.
  apply mixed_load with (new := new); [lia|exact LI|].
  intros s Hs. rewrite <- !sector_of_at. assert (s < n) by lia. rewrite D3, D3' by assumption.
  assert (X : seen_sector k f s = seen_sector k before s \/ seen_sector k f s = seen_sector k image s).
  { unfold seen_sector. destruct (T3 s ltac:(lia)) as [-> | ->]; auto. }
  destruct X as [-> |X]; [right|left; exact X].
  specialize (U s ltac:(lia)). unfold unsealed in U. unfold crc_ok.
  destruct (bytes_eqb _ _) eqn:E; [|reflexivity]. apply bytes_eqb_spec in E.
  unfold compute_sector_crc32 in E. consts. contradiction.
Qed.

(** ** The metadata file *)

(** What changes before the metadata is written: the mode and the length. *)
Definition only_extended (p q : node) : Prop := exists n, content_of q = content_of p ++ repeat 0%N n.

Lemma only_extended_refl : forall p, only_extended p p.
Proof. intros p. exists 0. cbn. symmetry. apply app_nil_r. Qed.

Lemma mode_600 : N.land MODE_600 4095 = 384%N. Proof. reflexivity. Qed.

Lemma ensure_inv : forall io umask p min seen r, ensure_metadata_file io umask p min = (seen, r) ->
  (forall q, In q seen -> exists mode content, q = NFile mode content /\ only_extended p q /\ (p = NAbsent -> private q)) /\
  (r <> Panic) /\
  (r = Ok tt -> (exists mode content, hd p seen = NFile mode content) /\ owner_only (hd p seen) /\
     min <= length (content_of (hd p seen)) /\ only_extended p (hd p seen) /\
     (forall q, p = NAbsent -> length (content_of (hd q seen)) = min)) /\
  (p = NSymlink \/ p = NOther -> seen = [] /\ r <> Ok tt).
Proof.
  intros io umask p min seen r H. unfold ensure_metadata_file in H.
  (* the file [NFile mode content] is the current state, [rest] the states before *)
  assert (SZ : forall created mode content seen0 seen r, ensure_size io created min mode content seen0 = (seen, r) ->
     hd p seen0 = NFile mode content ->
     (seen = seen0 \/ seen = NFile mode (extend content min) :: seen0 /\ length content < min) /\ r <> Panic /\
     (r = Ok tt -> hd p seen = NFile mode (extend content min))).
  { intros created mode content s0 s1 r1 E HD. unfold ensure_size in E.
    assert (SY : forall s s1 r1, ensure_sync io created s = (s1, r1) -> s1 = s /\ r1 <> Panic).
    { intros s s2 r2 E2. unfold ensure_sync in E2. destruct (io 4), (created && negb (io 5)); cbn in E2; injection E2 as <- <-; split; congruence. }
    destruct (length content <? min) eqn:L.
    - apply Nat.ltb_lt in L. destruct (io 3).
      + apply SY in E as (-> & E). split; [right; auto|]. split; [exact E|]. reflexivity.
      + injection E as <- <-. split; [left; reflexivity|]. split; congruence.
    - apply Nat.ltb_ge in L. apply SY in E as (-> & E). split; [left; reflexivity|]. split; [exact E|].
      intros _. rewrite HD. unfold extend. replace (min - length content) with 0 by lia. cbn. rewrite app_nil_r. reflexivity. }
  assert (MD : forall created mode content seen0 seen r, ensure_mode io created min mode content seen0 = (seen, r) ->
     hd p seen0 = NFile mode content ->
     (forall q, In q seen -> In q seen0 \/ exists m c, q = NFile m c /\ (m = mode \/ m = MODE_600) /\ (c = content \/ c = extend content min)) /\ r <> Panic /\
     (r = Ok tt -> exists m, hd p seen = NFile m (extend content min) /\ N.land m 4095 = 384%N)).
  { intros created mode content s0 s1 r1 E HD. unfold ensure_mode in E. destruct (io 1); cbn [negb] in E.
    2:{ injection E as <- <-. split; [auto|]. split; congruence. }
    destruct (N.land mode MODE_MASK =? MODE_600)%N eqn:EM; cbn [negb] in E.
    - apply N.eqb_eq in EM. apply SZ in E as (E1 & E2 & E3); [|exact HD].
      split; [|split; [exact E2|]].
      + intros q Hq. destruct E1 as [->|(-> & _)]; [auto|]. destruct Hq as [<-|Hq]; [right; eauto 8|auto].
      + intros R. exists mode. split; [apply E3; exact R|]. exact EM.
    - destruct (io 2); cbn in E.
      2:{ injection E as <- <-. split; [auto|]. split; congruence. }
      apply SZ in E as (E1 & E2 & E3); [|reflexivity].
      split; [|split; [exact E2|]].
      + intros q Hq. destruct E1 as [->|(-> & _)].
        * destruct Hq as [<-|Hq]; [right; eauto 8|auto].
        * destruct Hq as [<-|[<-|Hq]]; [right; eauto 8|right; eauto 8|auto].
      + intros R. exists MODE_600. split; [apply E3; exact R|]. reflexivity. }
  assert (EXT : forall content, exists n, extend content min = content ++ repeat 0%N n)
    by (intros content; eexists; reflexivity).
  assert (LEN : forall content, min <= length (extend content min))
    by (intros content; unfold extend; rewrite app_length, repeat_length; lia).
  destruct (io 0); cbn [negb] in H.
  2:{ injection H as <- <-. split; [intros q []|]. split; [discriminate|]. split; [discriminate|]. intros _. split; [reflexivity|discriminate]. }
  destruct p as [|mode content| |].
  - apply MD in H as (H1 & H2 & H3); [|reflexivity]. split; [|split; [exact H2|split]].
    + intros q Hq. assert (P : forall m, m = N.ldiff MODE_600 umask \/ m = MODE_600 -> N.land m 63 = 0%N).
      { intros m [->| ->]; [|reflexivity]. unfold MODE_600. apply N.bits_inj. intros j. rewrite N.land_spec, N.ldiff_spec, N.bits_0.
        destruct (N.testbit 384 j) eqn:A; [|reflexivity]. destruct (N.testbit 63 j) eqn:B; [|apply andb_false_r].
        exfalso. assert (N.land 384 63 = 0)%N by reflexivity. apply (f_equal (fun z => N.testbit z j)) in H.
        rewrite N.land_spec, A, B, N.bits_0 in H. discriminate. }
      destruct (H1 q Hq) as [[<-|[]]|(m & c & -> & Hm & Hc)].
      * eexists _, _. split; [reflexivity|]. split; [exists 0; reflexivity|]. intros _. cbn. apply P. auto.
      * eexists _, _. split; [reflexivity|]. split; [|intros _; cbn; apply P; exact Hm].
        destruct Hc as [->| ->]; [exists 0; reflexivity|apply EXT].
    + intros R. destruct (H3 R) as (m & E & M). rewrite E. split; [eauto|]. split; [exact M|]. split; [apply LEN|].
      split; [apply EXT|]. intros q _. destruct seen as [|q0 seen]; [discriminate|]. cbn [hd] in *. subst q0. cbn [content_of].
      unfold extend. rewrite app_length, repeat_length. cbn. lia.
    + intros [X|X]; discriminate.
  - apply MD in H as (H1 & H2 & H3); [|reflexivity]. split; [|split; [exact H2|split]].
    + intros q Hq. destruct (H1 q Hq) as [[]|(m & c & -> & Hm & Hc)].
      eexists _, _. split; [reflexivity|]. split; [|discriminate].
      destruct Hc as [->| ->]; [apply (only_extended_refl (NFile mode content))|apply EXT].
    + intros R. destruct (H3 R) as (m & E & M). rewrite E. split; [eauto|]. split; [exact M|]. split; [apply LEN|].
      split; [apply EXT|]. discriminate.
    + intros [X|X]; discriminate.
  - injection H as <- <-. split; [intros q []|]. split; [discriminate|]. split; [discriminate|]. split; [reflexivity|discriminate].
  - injection H as <- <-. split; [intros q []|]. split; [discriminate|]. split; [discriminate|]. split; [reflexivity|discriminate].
Qed.
