(** CRC-32 is a linear map; bursts of at most 32 bits are always detected. *)
From Coq Require Import List NArith ZArith Bool Lia ZifyBool ZifyNat ZifyN.
From Verif Require Import Base BaseFacts MetadataModel.
Import ListNotations.
Local Open Scope N_scope.

Lemma lxor_swap : forall a b c d,
  N.lxor (N.lxor a b) (N.lxor c d) = N.lxor (N.lxor a c) (N.lxor b d).
Proof. intros. apply N.bits_inj. intro n. rewrite !N.lxor_spec.
  destruct (N.testbit a n), (N.testbit b n), (N.testbit c n), (N.testbit d n); reflexivity.
Qed.

Lemma div2_lxor : forall a b, N.div2 (N.lxor a b) = N.lxor (N.div2 a) (N.div2 b).
Proof. intros. rewrite !N.div2_spec. apply N.shiftr_lxor. Qed.

Lemma odd_lxor : forall a b, N.odd (N.lxor a b) = xorb (N.odd a) (N.odd b).
Proof. intros. rewrite <- !N.bit0_odd. apply N.lxor_spec. Qed.

Lemma crc_bit_lxor : forall a b, crc_bit (N.lxor a b) = N.lxor (crc_bit a) (crc_bit b).
Proof.
  intros a b. unfold crc_bit. rewrite odd_lxor, div2_lxor.
  destruct (N.odd a), (N.odd b); cbn [xorb].
  - rewrite lxor_swap, N.lxor_nilpotent, N.lxor_0_r. reflexivity.
  - rewrite !N.lxor_assoc. f_equal. apply N.lxor_comm.
  - apply N.lxor_assoc.
  - reflexivity.
Qed.

Lemma crc_bit_0 : crc_bit 0 = 0. Proof. reflexivity. Qed.

Lemma crc_bit_double : forall x, crc_bit (2 * x) = x.
Proof.
  intros x. unfold crc_bit. rewrite N.odd_mul. cbn [N.odd andb].
  change (N.odd 2) with false. cbn [andb]. rewrite N.div2_div. rewrite N.mul_comm. apply N.div_mul. lia.
Qed.

Definition crcs (n : nat) (x : N) : N := iter_n n crc_bit x.

Lemma crcs_lxor : forall n a b, crcs n (N.lxor a b) = N.lxor (crcs n a) (crcs n b).
Proof.
  unfold crcs. induction n; intros a b; cbn [iter_n]; [reflexivity|].
  rewrite crc_bit_lxor. apply IHn.
Qed.

Lemma crcs_add : forall n m x, crcs (n + m) x = crcs m (crcs n x).
Proof. unfold crcs. induction n; intros m x; cbn [iter_n Nat.add]; auto. Qed.

Lemma crcs_shift : forall n x, crcs n (x * 2 ^ N.of_nat n) = x.
Proof.
  unfold crcs. induction n; intros x; cbn [iter_n].
  - change (N.of_nat 0) with 0. rewrite N.pow_0_r. lia.
  - replace (x * 2 ^ N.of_nat (S n)) with (2 * (x * 2 ^ N.of_nat n)).
    + rewrite crc_bit_double. apply IHn.
    + replace (N.of_nat (S n)) with (N.succ (N.of_nat n)) by lia. rewrite N.pow_succ_r by lia. lia.
Qed.

Lemma crcs_0 : forall n, crcs n 0 = 0.
Proof. unfold crcs. induction n; cbn [iter_n]; auto. Qed.

(** Below 2^32 the shift register never loses information. *)
Lemma lxor_bound : forall a b n, a < 2 ^ n -> b < 2 ^ n -> N.lxor a b < 2 ^ n.
Proof.
  intros a b n Ha Hb.
  destruct (N.eq_dec (N.lxor a b) 0) as [E|E]; [rewrite E; lia|].
  apply N.log2_lt_pow2; [lia|].
  eapply N.le_lt_trans; [apply N.log2_lxor|].
  destruct (N.eq_dec a 0) as [Ea|Ea]; destruct (N.eq_dec b 0) as [Eb|Eb]; subst.
  - exfalso. apply E. reflexivity.
  - change (N.log2 0) with 0. rewrite N.max_0_l. apply N.log2_lt_pow2; lia.
  - change (N.log2 0) with 0. rewrite N.max_0_r. apply N.log2_lt_pow2; lia.
  - apply N.max_lub_lt; apply N.log2_lt_pow2; lia.
Qed.

Lemma crc_bit_bound : forall x, x < 2 ^ 32 -> crc_bit x < 2 ^ 32.
Proof.
  intros x H. unfold crc_bit.
  assert (Hd : N.div2 x < 2 ^ 32).
  { rewrite N.div2_div. apply N.div_lt_upper_bound; lia. }
  destruct (N.odd x); [|exact Hd].
  apply lxor_bound; [exact Hd|]. reflexivity.
Qed.

Lemma crc_bit_kernel : forall x, x < 2 ^ 32 -> crc_bit x = 0 -> x = 0.
Proof.
  intros x H E. unfold crc_bit in E.
  destruct (N.odd x) eqn:O.
  - apply N.lxor_eq in E. rewrite N.div2_div in E.
    assert (x / 2 < 2 ^ 31) by (apply N.div_lt_upper_bound; lia).
    rewrite E in H0. exfalso. revert H0. apply N.le_ngt. unfold CRC_POLY. lia.
  - rewrite N.div2_div in E. apply N.div_small_iff in E; [|lia].
    assert (x = 0 \/ x = 1) as [->| ->] by lia; [reflexivity|discriminate].
Qed.

Lemma crcs_kernel : forall n x, x < 2 ^ 32 -> crcs n x = 0 -> x = 0.
Proof.
  unfold crcs. induction n; intros x H E; cbn [iter_n] in E; [exact E|].
  apply crc_bit_kernel; [exact H|]. apply IHn; [|exact E]. now apply crc_bit_bound.
Qed.

(** The whole message as one integer. *)
Lemma lxor_low_high : forall a b k, a < 2 ^ k -> N.lxor a (2 ^ k * b) = a + 2 ^ k * b.
Proof.
  intros a b k H. symmetry. apply N.add_nocarry_lxor.
  apply N.bits_inj. intro n. rewrite N.land_spec, N.bits_0.
  destruct (N.lt_ge_cases n k) as [Hn|Hn].
  - rewrite (N.mul_comm (2 ^ k) b). rewrite N.mul_pow2_bits_low by exact Hn. apply andb_false_r.
  - destruct (N.eq_dec a 0) as [->|Ha]; [rewrite N.bits_0; reflexivity|].
    rewrite N.bits_above_log2; [reflexivity|].
    apply N.log2_lt_pow2; [lia|]. eapply N.lt_le_trans; [exact H|]. apply N.pow_le_mono_r; lia.
Qed.

Lemma fold_crc_byte : forall l c, bytes_ok l ->
  fold_left crc_byte l c = crcs (8 * length l) (N.lxor c (le_val l)).
Proof.
  induction l as [|b l IH]; intros c H.
  - cbn [fold_left length le_val]. change (8 * 0)%nat with O. unfold crcs. cbn [iter_n].
    now rewrite N.lxor_0_r.
  - inversion H as [|? ? Hb Hl]; subst. cbn [fold_left].
    rewrite IH by exact Hl. cbn [length le_val].
    replace (8 * S (length l))%nat with (8 + 8 * length l)%nat by lia.
    rewrite crcs_add. f_equal.
    unfold byte_ok in Hb.
    change 256 with (2 ^ 8). rewrite <- (lxor_low_high b (le_val l) 8) by exact Hb.
    rewrite <- N.lxor_assoc. rewrite crcs_lxor.
    rewrite (N.mul_comm (2 ^ 8)).
    change (2 ^ 8) with (2 ^ N.of_nat 8). rewrite crcs_shift.
    reflexivity.
Qed.

Lemma fold_crc_byte_bound : forall l c, bytes_ok l -> c < 2 ^ 32 ->
  fold_left crc_byte l c < 2 ^ 32.
Proof.
  assert (HB : forall n x, x < 2 ^ 32 -> crcs n x < 2 ^ 32).
  { unfold crcs. induction n; intros x Hx; cbn [iter_n]; [exact Hx|].
    apply IHn. now apply crc_bit_bound. }
  induction l as [|b l IH]; intros c H Hc; cbn [fold_left]; [exact Hc|].
  inversion H as [|? ? Hb Hl]; subst. apply IH; [exact Hl|].
  change (crcs 8 (N.lxor c b) < 2 ^ 32). apply HB. apply lxor_bound; [exact Hc|].
  unfold byte_ok in Hb. eapply N.lt_trans; [exact Hb|reflexivity].
Qed.

Lemma crc32_bound : forall l, bytes_ok l -> crc32 l < 2 ^ 32.
Proof.
  intros l H. unfold crc32. apply lxor_bound.
  - apply fold_crc_byte_bound; [exact H|reflexivity].
  - reflexivity.
Qed.

(** Two different messages of the same length followed by their CRCs differ by
    more than any burst of 32 bits. *)
Lemma crc_burst : forall (body body' crc crc' : list byte) (burst : N) (k : nat),
  bytes_ok body -> bytes_ok body' -> bytes_ok crc -> bytes_ok crc' ->
  length body' = length body -> length crc = 4%nat -> length crc' = 4%nat ->
  le_val crc = crc32 body -> le_val crc' = crc32 body' ->
  le_val (body' ++ crc') = N.lxor (le_val (body ++ crc)) (burst * 2 ^ N.of_nat k) ->
  burst < 2 ^ 32 -> (k < 8 * (length body + 4))%nat ->
  burst = 0.
Proof.
  intros body body' crc crc' burst k Hb Hb' Hc Hc' Hl Hlc Hlc' Ec Ec' Hx Hbu Hk.
  set (n := (8 * length body)%nat).
  assert (Pow : 256 ^ N.of_nat (length body) = 2 ^ N.of_nat n).
  { unfold n. change 256 with (2 ^ 8). rewrite <- N.pow_mul_r. f_equal. lia. }
  assert (Split : forall b c, bytes_ok b -> length b = length body ->
            le_val (b ++ c) = N.lxor (le_val b) (le_val c * 2 ^ N.of_nat n)).
  { intros b c Hbo Hlb. rewrite le_val_app, Hlb, Pow, <- lxor_low_high.
    - f_equal. apply N.mul_comm.
    - rewrite <- Pow, <- Hlb. now apply le_val_bound. }
  assert (Val : forall b, bytes_ok b -> length b = length body ->
            crcs n (le_val b) = N.lxor (crcs n CRC_MASK) (N.lxor (crc32 b) CRC_MASK)).
  { intros b Hbo Hlb. unfold crc32. rewrite (fold_crc_byte b CRC_MASK Hbo), Hlb. fold n.
    rewrite crcs_lxor.
    apply N.bits_inj. intro j. rewrite !N.lxor_spec.
    destruct (N.testbit (crcs n CRC_MASK) j), (N.testbit (crcs n (le_val b)) j),
      (N.testbit CRC_MASK j); reflexivity. }
  assert (Res : forall b c, bytes_ok b -> length b = length body -> le_val c = crc32 b ->
            crcs n (le_val (b ++ c)) = N.lxor (crcs n CRC_MASK) CRC_MASK).
  { intros b c Hbo Hlb Hcr. rewrite (Split b c Hbo Hlb), crcs_lxor, crcs_shift, (Val b Hbo Hlb), Hcr.
    apply N.bits_inj. intro j. rewrite !N.lxor_spec.
    destruct (N.testbit (crcs n CRC_MASK) j), (N.testbit (crc32 b) j),
      (N.testbit CRC_MASK j); reflexivity. }
  pose proof (Res body crc Hb eq_refl Ec) as R1.
  pose proof (Res body' crc' Hb' Hl Ec') as R2.
  rewrite Hx, crcs_lxor, R1 in R2.
  assert (R3 : crcs n (burst * 2 ^ N.of_nat k) = 0).
  { apply (f_equal (N.lxor (N.lxor (crcs n CRC_MASK) CRC_MASK))) in R2.
    rewrite <- N.lxor_assoc, !N.lxor_nilpotent, N.lxor_0_l in R2. exact R2. }
  destruct (Nat.le_gt_cases k n) as [Hkn|Hkn].
  - replace n with (k + (n - k))%nat in R3 by lia. rewrite crcs_add, crcs_shift in R3.
    apply (crcs_kernel _ _ Hbu R3).
  - (* the burst lies wholly inside the stored CRC *)
    replace (N.of_nat k) with (N.of_nat (k - n) + N.of_nat n) in R3 by lia.
    rewrite N.pow_add_r, N.mul_assoc, crcs_shift in R3.
    apply N.mul_eq_0 in R3. destruct R3 as [R3|R3]; [exact R3|].
    exfalso. revert R3. apply N.pow_nonzero. lia.
Qed.
