(** Connecting the model of the metadata code to [MetadataSpec]. *)
From Coq Require Import List Arith NArith ZArith Bool Lia ZifyBool ZifyNat ZifyN.
From Verif Require Import Base BaseFacts MetadataModel CrcProofs MetadataProofs MetadataSpec.
Import ListNotations.
Local Open Scope nat_scope.
Ltac Zify.zify_post_hook ::= Z.div_mod_to_equations.

Lemma bytes_at_slice : forall buf p n, p + n <= length buf ->
  bytes_at buf p n = firstn n (skipn p buf).
Proof.
  intros buf p n H. apply (nth_ext _ _ 0%N 0%N).
  - unfold bytes_at. rewrite map_length, seq_length, firstn_length, skipn_length. lia.
  - intros i Hi. unfold bytes_at in *. rewrite map_length, seq_length in Hi.
    rewrite nth_firstn, nth_skipn by lia.
    rewrite (nth_indep _ 0%N (nth (p + 0) buf 0%N)) by (rewrite map_length, seq_length; lia).
    rewrite (map_nth (fun i => nth (p + i) buf 0%N)). rewrite seq_nth by lia. f_equal.
Qed.

Lemma firstn4 : forall (l : list byte) p, p + 4 <= length l ->
  firstn 4 (skipn p l) = [nth p l 0%N; nth (p + 1) l 0%N; nth (p + 2) l 0%N; nth (p + 3) l 0%N].
Proof.
  intros l p H. rewrite <- bytes_at_slice by lia. unfold bytes_at. cbn [seq map].
  rewrite Nat.add_0_r. reflexivity.
Qed.

Lemma u32_at_val : forall l p, p + 4 <= length l -> u32_at l p = le_val (firstn 4 (skipn p l)).
Proof. intros l p H. rewrite firstn4 by lia. unfold u32_at. cbn [le_val]. lia. Qed.

Lemma crc_ok_iff : forall buf s, bytes_ok buf -> S s * 512 <= length buf ->
  (crc_ok (sector_at buf s) = true <->
   u32_at buf (512 * s + 508) = crc32 (bytes_at buf (512 * s) 508)).
Proof.
  intros buf s Hb H.
  assert (Hl : length (sector_at buf s) = 512) by (apply sector_at_length; consts; lia).
  assert (E1 : skipn 508 (sector_at buf s) = firstn 4 (skipn (512 * s + 508) buf)).
  { unfold sector_at. consts. rewrite skipn_firstn_comm. f_equal.
    assert (Hss : forall a b (l : list byte), skipn a (skipn b l) = skipn (a + b) l).
    { induction b as [|b IHb]; intros l; [now rewrite Nat.add_0_r|].
      rewrite Nat.add_succ_r. destruct l; cbn [skipn]; [now destruct a|]. apply IHb. }
    rewrite Hss. f_equal. lia. }
  assert (E2 : firstn 508 (sector_at buf s) = bytes_at buf (512 * s) 508).
  { rewrite bytes_at_slice by lia. unfold sector_at. consts. rewrite firstn_firstn.
    replace (Nat.min 508 512) with 508 by reflexivity. f_equal. f_equal. lia. }
  rewrite u32_at_val by lia. rewrite <- E1, <- E2.
  assert (Hbs : bytes_ok (sector_at buf s)) by now apply bytes_ok_sector_at.
  unfold crc_ok. rewrite bytes_eqb_spec. unfold compute_sector_crc32, CRC32_SIZE. split.
  - intros ->. apply le_val_le_bytes. apply crc32_bound. now apply bytes_ok_firstn.
  - intros <-. assert (HL : length (skipn 508 (sector_at buf s)) = 4) by (rewrite skipn_length; lia).
    rewrite <- HL at 2. symmetry. apply le_bytes_le_val. now apply bytes_ok_skipn.
Qed.

Lemma in_use_iff : forall n s, sector_in_use n s <-> s <= div_ceil n 508.
Proof.
  intros n s. unfold sector_in_use. split.
  - intros [->|(i & Hi & ->)]; [lia|]. unfold div_ceil. lia.
  - intros H. destruct s as [|s]; [now left|right].
    exists (s * 508). split; [apply div_ceil_lt; lia|]. rewrite Nat.div_mul by lia. lia.
Qed.

Lemma bytes_eqb_iff : forall a b, bytes_eqb a b = true <-> a = b.
Proof. exact bytes_eqb_spec. Qed.

Lemma image_ok_iff : forall buf, bytes_ok buf ->
  (image_ok buf = true <-> exists shift hs, valid_image buf shift hs /\
     shift = nth 13 buf 0%N /\ hs = decoded_headers buf).
Proof.
  intros buf Hb. split.
  - intros H. pose proof (decoded_headers_length buf H) as [HL HD].
    pose proof (fun i d => decoded_headers_nth buf i d H) as HN.
    exists (nth 13 buf 0%N), (decoded_headers buf). split; [|split; reflexivity].
    unfold image_ok in H. rewrite !andb_true_iff in H.
    destruct H as [[[[[[[[H1 H2] H3] H4] H5] H6] H7] H8] H9].
    apply Nat.leb_le in H1. apply Nat.eqb_eq in H2. apply bytes_eqb_spec in H4, H5, H6.
    apply N.leb_le in H7. pose proof (mod_div_512 _ H2) as HM.
    constructor; auto.
    + rewrite bytes_at_slice by lia. exact H4.
    + replace (bytes_at buf 9 4) with (bytes_at buf 9 2 ++ bytes_at buf 11 2) by reflexivity.
      rewrite !bytes_at_slice by lia. now rewrite H5, H6.
    + rewrite u32_at_val by lia. fold (header_count buf). rewrite HL. lia.
    + rewrite HL. intros i Hi. unfold header_pos.
      pose proof (div_ceil_lt (N.to_nat (header_count buf)) 508).
      assert (i / 508 < div_ceil (N.to_nat (header_count buf)) 508) by (unfold div_ceil; lia).
      pose proof (Nat.mod_upper_bound i 508). lia.
    + rewrite HL. intros s Hs. apply in_use_iff in Hs.
      apply crc_ok_iff; [exact Hb|lia|].
      destruct s as [|s]; [exact H3|]. rewrite groups_ok_spec in H9. apply H9. lia.
    + rewrite HL. intros i Hi. apply HN. exact Hi.
  - intros (shift & hs & V & -> & ->). destruct V as [V_min V_len V_magic V_version V_shift V_shift_max V_count V_fits V_crc V_headers].
    pose proof (mod_div_512 _ V_len) as HM.
    set (n := length (decoded_headers buf)) in *.
    assert (Hc : header_count buf = N.of_nat n).
    { unfold header_count. rewrite <- u32_at_val by lia. exact V_count. }
    assert (Hcap : n <= (length buf / 512 - 1) * 508).
    { destruct n as [|n']; [lia|]. specialize (V_fits n' ltac:(lia)). unfold header_pos in V_fits.
      assert (n' / 508 < length buf / 512 - 1) by lia. lia. }
    assert (Hdc : div_ceil n 508 <= length buf / 512 - 1) by (apply div_ceil_le; lia).
    assert (Hk : (length buf - 512) / 512 = length buf / 512 - 1).
    { rewrite HM at 1. replace (512 * (length buf / 512) - 512) with ((length buf / 512 - 1) * 512) by lia.
      apply Nat.div_mul. lia. }
    unfold image_ok. rewrite !andb_true_iff. repeat split.
    + apply Nat.leb_le. lia.
    + apply Nat.eqb_eq. exact V_len.
    + apply crc_ok_iff; [exact Hb|lia|]. apply V_crc. now left.
    + apply bytes_eqb_spec. rewrite bytes_at_slice in V_magic by lia. exact V_magic.
    + apply bytes_eqb_spec. rewrite <- bytes_at_slice by lia.
      apply (f_equal (firstn 2)) in V_version. exact V_version.
    + apply bytes_eqb_spec. rewrite <- bytes_at_slice by lia.
      apply (f_equal (skipn 2)) in V_version. exact V_version.
    + apply N.leb_le. exact V_shift_max.
    + apply N.leb_le. rewrite Hc, Hk. lia.
    + apply groups_ok_spec. intros i Hi. rewrite Hc, Nnat.Nat2N.id in Hi.
      apply crc_ok_iff; [exact Hb|lia|]. apply V_crc. apply in_use_iff. lia.
Qed.

Lemma valid_image_headers : forall buf shift hs, bytes_ok buf -> valid_image buf shift hs ->
  image_ok buf = true /\ hs = decoded_headers buf.
Proof.
  intros buf shift hs Hb V.
  assert (Hn : N.to_nat (header_count buf) = length hs).
  { destruct V as [V_min V_len V_magic V_version V_shift V_shift_max V_count V_fits V_crc V_headers]. unfold header_count. rewrite <- u32_at_val by lia. lia. }
  assert (Hok : image_ok buf = true).
  { assert (HDl : length (decoded_headers buf) = length hs).
    { unfold decoded_headers. rewrite firstn_length, Hn.
      rewrite (flat_map_const_length _ 508).
      - pose proof (div_ceil_ge (length hs) 508). lia.
      - intros i Hi. apply group_data_length. destruct V as [V_min V_len V_magic V_version V_shift V_shift_max V_count V_fits V_crc V_headers].
        pose proof (mod_div_512 _ V_len).
        assert (i * 508 < length hs) by (apply div_ceil_lt; lia).
        specialize (V_fits (i * 508) ltac:(lia)). unfold header_pos in V_fits.
        rewrite Nat.div_mul in V_fits by lia. lia. }
    apply image_ok_iff; [exact Hb|].
    exists (nth 13 buf 0%N), (decoded_headers buf). split; [|split; reflexivity].
    destruct V as [V_min V_len V_magic V_version V_shift V_shift_max V_count V_fits V_crc V_headers]. constructor; auto; try (rewrite HDl; auto; fail).
    - rewrite V_shift. exact V_shift_max.
    - rewrite HDl. intros i Hi.
      pose proof (mod_div_512 _ V_len) as HM.
      unfold decoded_headers. rewrite nth_firstn by lia.
      pose proof (div_ceil_ge (N.to_nat (header_count buf)) 508).
      assert (HD : div_ceil (N.to_nat (header_count buf)) 508 <= length buf / 512 - 1).
      { apply div_ceil_le; [lia|]. rewrite Hn.
        destruct (length hs) as [|n']; [lia|]. specialize (V_fits n' ltac:(lia)). unfold header_pos in V_fits.
        assert (n' / 508 < length buf / 512 - 1) by lia. lia. }
      rewrite (nth_flat_map _ 0%N 508); [|lia| |lia].
      + unfold group_data, sector_at. cbn [Nat.add].
        pose proof (Nat.mod_upper_bound i 508).
        rewrite nth_firstn by lia. rewrite nth_firstn by (consts; lia).
        rewrite nth_skipn. f_equal. consts. unfold header_pos. lia.
      + intros j Hj. apply group_data_length. lia. }
  split; [exact Hok|].
  pose proof (decoded_headers_length buf Hok) as [HL _].
  apply (nth_ext _ _ 0%N 0%N); [lia|]. intros i Hi.
  rewrite decoded_headers_nth by (auto; lia). destruct V as [V_min V_len V_magic V_version V_shift V_shift_max V_count V_fits V_crc V_headers]. apply V_headers. exact Hi.
Qed.

Lemma from_bytes_iff : forall buf m, bytes_ok buf ->
  (from_bytes buf = Ok m <->
   exists shift hs, valid_image buf shift hs /\ m = current_metadata shift hs).
Proof.
  intros buf m Hb. split.
  - intros H. apply from_bytes_ok_inv in H. destruct H as [Hok ->].
    exists (nth 13 buf 0%N), (decoded_headers buf). split; [|reflexivity].
    apply image_ok_iff in Hok; [|exact Hb]. destruct Hok as (s & h & V & -> & ->). exact V.
  - intros (shift & hs & V & ->).
    destruct (valid_image_headers buf shift hs Hb V) as [Hok ->].
    pose proof (from_bytes_exact buf) as [E _]. rewrite E by exact Hok.
    destruct V as [V_min V_len V_magic V_version V_shift V_shift_max V_count V_fits V_crc V_headers]. unfold current_metadata. rewrite <- V_shift. reflexivity.
Qed.

Lemma from_bytes_total : forall buf, is_panic (from_bytes buf) = false.
Proof.
  intros buf. pose proof (from_bytes_exact buf) as [H1 H2].
  destruct (image_ok buf); [rewrite H1 by reflexivity; reflexivity|].
  destruct (H2 eq_refl) as [t ->]. reflexivity.
Qed.

Lemma header_pos_inj : forall i j, header_pos i = header_pos j -> i = j.
Proof.
  intros i j H. unfold header_pos in H.
  pose proof (Nat.mod_upper_bound i 508). pose proof (Nat.mod_upper_bound j 508).
  assert (i / 508 = j / 508) by lia.
  pose proof (Nat.div_mod i 508). pose proof (Nat.div_mod j 508). lia.
Qed.
