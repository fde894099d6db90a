(** Proofs about the remote stripe protocol. *)
From Coq Require Import List Arith NArith ZArith Bool Lia ZifyBool ZifyNat ZifyN.
Import ListNotations.
From Verif Require Import Base BaseFacts MetadataModel MetadataSpec MetadataProps RemoteModel RemoteSpec.
Local Open Scope N_scope.
Ltac Zify.zify_post_hook ::= Z.div_mod_to_equations.
Arguments from_bytes : simpl never.
Arguments write_to_buf : simpl never.
Arguments le_bytes : simpl never.
Arguments le_val : simpl never.

Lemma flag_testbit : forall h k, negb (N.land h (2 ^ k) =? 0) = N.testbit h k.
Proof.
  intros h k. destruct (N.testbit h k) eqn:E.
  - apply negb_true_iff, N.eqb_neq. intros H.
    assert (N.testbit (N.land h (2 ^ k)) k = false) as X by (rewrite H; apply N.bits_0).
    rewrite N.land_spec, E, N.pow2_bits_true in X. discriminate.
  - apply negb_false_iff, N.eqb_eq. apply N.bits_inj. intros j. rewrite N.land_spec, N.bits_0.
    destruct (N.eq_dec k j) as [<-|Hj]; [rewrite E; reflexivity|].
    rewrite N.pow2_bits_false by auto. apply andb_false_r.
Qed.
Lemma flag_fetched h : flag FLAG_FETCHED h = fetched h.
Proof. exact (flag_testbit h 0). Qed.
Lemma flag_written h : flag FLAG_WRITTEN h = written h.
Proof. exact (flag_testbit h 1). Qed.
Lemma flag_has_source h : flag FLAG_HAS_SOURCE h = has_source h.
Proof. exact (flag_testbit h 2). Qed.

Lemma ssc_current : forall shift hs, stripe_sector_count (current_metadata shift hs) = 2 ^ shift.
Proof. intros. unfold stripe_sector_count, current_metadata. cbn [md_shift]. rewrite N.shiftl_mul_pow2. lia. Qed.
Lemma ss_current : forall shift hs, MetadataModel.stripe_size (current_metadata shift hs) = 512 * 2 ^ shift.
Proof. intros. unfold MetadataModel.stripe_size. rewrite ssc_current. lia. Qed.

Lemma pow_shift_bound shift : shift <= 17 -> 2 ^ shift <= 131072.
Proof. intros H. change 131072 with (2 ^ 17). apply N.pow_le_mono_r; lia. Qed.

(** ** read_exact *)
Lemma read_exact_app : forall n a b, length a = n -> read_exact n (a ++ b) = Some (a, b).
Proof.
  intros n a b H. unfold read_exact. rewrite app_length, H.
  replace (n <=? n + length b)%nat with true by (symmetry; apply Nat.leb_le; lia).
  rewrite firstn_app_exact, skipn_app_exact by auto. reflexivity.
Qed.
Lemma read_exact_inv : forall n i a b, read_exact n i = Some (a, b) -> i = a ++ b /\ length a = n.
Proof.
  intros n i a b H. unfold read_exact in H. destruct (n <=? length i)%nat eqn:E; [|discriminate].
  apply Nat.leb_le in E. injection H as <- <-. rewrite firstn_skipn, firstn_length. split; auto. lia.
Qed.
Lemma read_exact_short : forall n i, (length i < n)%nat -> read_exact n i = None.
Proof. intros n i H. unfold read_exact. replace (n <=? length i)%nat with false; auto. symmetry. apply Nat.leb_gt. lia. Qed.
Lemma cread_app : forall A n a b (k : list byte -> list byte -> cres A), length a = n -> cread n (a ++ b) k = k a b.
Proof. intros A n a b k H. unfold cread. now rewrite read_exact_app. Qed.
Lemma cread_short : forall A n i (k : list byte -> list byte -> cres A), (length i < n)%nat -> cread n i k = CErr EIo [].
Proof. intros A n i k H. unfold cread. now rewrite read_exact_short. Qed.
Lemma read_exact_1 : forall x b, read_exact 1 (x :: b) = Some ([x], b).
Proof. intros. exact (read_exact_app 1 [x] b eq_refl). Qed.
Lemma cread_1 : forall A x b (k : list byte -> list byte -> cres A), cread 1 (x :: b) k = k [x] b.
Proof. intros. exact (cread_app A 1 [x] b k eq_refl). Qed.

(** ** The server's answer to a stripe request *)
Definition going (a : answer) : bool := match a with AFailed => false | _ => true end.

Lemma read_stripe_answer : forall shift hs src o i, shift <= 17 ->
  exists a bytes, stripe_answer shift hs src o i a /\
    handle_read_stripe (mk_session (current_metadata shift hs) src) o i = Ok (bytes, going a) /\
    (full_reads o -> wire a bytes).
Proof.
  intros shift hs src o i Hs. unfold handle_read_stripe. cbn [ss_meta ss_source].
  unfold stripe_count, stripe_len. rewrite ss_current, ssc_current.
  change (md_headers (current_metadata shift hs)) with hs.
  pose proof (pow_shift_bound shift Hs) as Hp.
  destruct (N.of_nat (length hs) <=? i) eqn:Ei.
  { exists AInvalid, [1]. split; [constructor; lia|]. split; reflexivity. }
  assert (Hi : (N.to_nat i < length hs)%nat) by lia.
  destruct (nth_error hs (N.to_nat i)) as [h|] eqn:Eh; [|apply nth_error_None in Eh; lia].
  assert (Hx : index hs (N.to_nat i) = Ok h).
  { rewrite (index_ok _ _ 0) by auto. f_equal. now apply nth_error_nth. }
  unfold stripe_not_fetched, stripe_has_data. change (md_headers (current_metadata shift hs)) with hs. rewrite !Hx. cbn [bindr].
  rewrite flag_fetched, flag_has_source, flag_written. fold (in_source_only h).
  replace (2 ^ shift mod 2 ^ 32) with (2 ^ shift) by (symmetry; apply N.mod_small; change (2 ^ 32) with 4294967296; lia).
  destruct (in_source_only h) eqn:Eo.
  - destruct src.
    + unfold data_reply. rewrite ss_current. destruct (io_src o i (N.to_nat (512 * 2 ^ shift))) as [d|] eqn:Ed.
      * exists (AData d), (0 :: le_bytes 8 (512 * 2 ^ shift) ++ d). split; [eapply sa_source; eauto|].
        split; [reflexivity|]. intros [_ F]. cbn [wire]. rewrite (F _ _ _ Ed). repeat f_equal. lia.
      * exists AFailed, [255]. split; [eapply sa_source_failed; eauto|]. split; reflexivity.
    + exists ANotFetched, [3]. split; [eapply sa_not_fetched; eauto|]. split; reflexivity.
  - assert (Q : written h || has_source h && fetched h = (written h || has_source h)).
    { unfold in_source_only in Eo. destruct (written h), (has_source h), (fetched h); try reflexivity; discriminate. }
    rewrite Q. clear Q. destruct (written h || has_source h) eqn:Ew.
    + assert (Dl : data_local h = true) by (unfold data_local; rewrite Eo, Ew; reflexivity).
      cbn [negb]. unfold data_reply. rewrite ss_current.
      destruct (io_dev o (i * 2 ^ shift) (2 ^ shift) (N.to_nat (512 * 2 ^ shift))) as [d|] eqn:Ed.
      * exists (AData d), (0 :: le_bytes 8 (512 * 2 ^ shift) ++ d). split; [eapply sa_local; eauto|].
        split; [reflexivity|]. intros [F _]. cbn [wire]. rewrite (F _ _ _ _ Ed). repeat f_equal. lia.
      * exists AFailed, [255]. split; [eapply sa_local_failed; eauto|]. split; reflexivity.
    + apply orb_false_iff in Ew as [Ew1 Ew2].
      exists ANoData, [2]. split; [eapply sa_no_data; eauto|]. split; reflexivity.
Qed.

Lemma stripe_answer_fun : forall shift hs src o i a b,
  stripe_answer shift hs src o i a -> stripe_answer shift hs src o i b -> a = b.
Proof.
  intros shift hs src o i a b Ha Hb.
  assert (R : forall h, nth_error hs (N.to_nat i) = Some h -> N.of_nat (length hs) <= i -> False).
  { intros h H L. assert (N.to_nat i < length hs)%nat by (apply nth_error_Some; congruence). lia. }
  destruct Ha, Hb; try reflexivity; try (exfalso; eapply R; eassumption); try congruence;
    try (match goal with H1 : nth_error ?l ?k = Some ?x, H2 : nth_error ?l ?k = Some ?y |- _ =>
           rewrite H1 in H2; injection H2 as -> end);
    unfold data_local, in_source_only in *;
    repeat match goal with H : written ?h = _ |- _ => rewrite H in * end;
    repeat match goal with H : has_source ?h = _ |- _ => rewrite H in * end;
    cbn in *; try congruence; destruct (has_source h0), (fetched h0), (written h0); cbn in *; congruence.
Qed.

(** ** One request *)
Definition meta_ok (shift : N) (hs : list byte) : Prop :=
  shift <= 17 /\ N.of_nat (length hs) < 2 ^ 32.

Lemma one_request : forall shift hs src o q a more, meta_ok shift hs -> full_reads o ->
  right_answer shift hs src o q a ->
  exists bytes, wire a bytes /\
    handle_single_request (mk_session (current_metadata shift hs) src) o (encode_request q ++ more)
      = Ok (bytes, if going a then Some more else None).
Proof.
  intros shift hs src o q a more [Hs Hh] F R. unfold handle_single_request.
  destruct q as [| |i]; cbn [encode_request app]; rewrite read_exact_1; cbn [nth].
  - cbn in R. subst a. exists [0; 1; 0; 0; 0]. split; [reflexivity|]. reflexivity.
  - cbn in R. subst a.
    change (METADATA_CMD =? HELLO_CMD) with false. change (METADATA_CMD =? METADATA_CMD) with true. cbn match.
    unfold handle_metadata. cbn [ss_meta].
    assert (Hsz : metadata_size (current_metadata shift hs) = (512 * (1 + (length hs + 507) / 508))%nat).
    { unfold metadata_size, stripe_header_sector_count, div_ceil, current_metadata, SECTOR_SIZE, STRIPE_HEADERS_PER_SECTOR.
      cbn [md_headers]. change (508 - 1)%nat with 507%nat. lia. }
    rewrite Hsz. set (sz := (512 * (1 + (length hs + 507) / 508))%nat) in *.
    destruct (C01_metadata_roundtrip shift hs (repeat 0 sz) Hs Hh) as (b & W & L & _ & B).
    { rewrite repeat_length. unfold sz. rewrite Nat.mul_comm. apply Nat.mod_mul. lia. }
    { rewrite repeat_length. apply le_n. }
    rewrite repeat_length in L. rewrite W. cbn [bindr fst snd].
    exists (0 :: le_bytes 8 (N.of_nat sz) ++ b). split; [|reflexivity].
    cbn [wire]. exists b. rewrite L. auto.
  - cbn in R. destruct R as [Hi R].
    change (READ_STRIPE_CMD =? HELLO_CMD) with false. change (READ_STRIPE_CMD =? METADATA_CMD) with false.
    change (READ_STRIPE_CMD =? READ_STRIPE_CMD) with true. cbn match.
    rewrite read_exact_app by apply le_bytes_length.
    rewrite le_val_le_bytes by exact Hi.
    destruct (read_stripe_answer shift hs src o i Hs) as (a' & bytes & A & E & W).
    rewrite E. cbn [bindr fst snd]. rewrite (stripe_answer_fun _ _ _ _ _ _ _ R A).
    exists bytes. split; auto.
Qed.

Lemma image_size_bounds : forall (im hs : list byte), length im = (512 * (1 + (length hs + 507) / 508))%nat ->
  512 * (1 + (N.of_nat (length hs) + 507) / 508) <= MAX_REMOTE_METADATA_SIZE ->
  (N.of_nat (length im) <? 512) = false /\ (MAX_REMOTE_METADATA_SIZE <? N.of_nat (length im)) = false /\
  N.of_nat (length im) < 256 ^ N.of_nat 8.
Proof.
  intros im hs L H.
  assert (E : N.of_nat (length im) = 512 * (1 + (N.of_nat (length hs) + 507) / 508)).
  { rewrite L. clear L H. lia. }
  rewrite E. clear L E im. revert H. generalize ((N.of_nat (length hs) + 507) / 508). intros n H.
  change (256 ^ N.of_nat 8) with 18446744073709551616. change MAX_REMOTE_METADATA_SIZE with 67108864 in *.
  split; [|split]; lia.
Qed.

Lemma client_on_wire : forall shift hs src o q a bytes more, meta_ok shift hs -> full_reads o ->
  512 * (1 + (N.of_nat (length hs) + 507) / 508) <= MAX_REMOTE_METADATA_SIZE ->
  right_answer shift hs src o q a -> wire a bytes ->
  client_one (Some (current_metadata shift hs)) q (bytes ++ more) = (seen_of a, more).
Proof.
  intros shift hs src o q a bytes more [Hs Hh] F Hmax R W.
  pose proof (pow_shift_bound shift Hs) as Hp.
  destruct q as [| |i]; cbn in R.
  - subst a. cbn [wire] in W. subst bytes. reflexivity.
  - subst a. cbn [wire] in W. destruct W as (im & -> & L & B). cbn [client_one seen_of].
    unfold client_metadata. cbn [app]. rewrite cread_1. cbn [nth].
    change (0 =? STATUS_OK) with true. cbn [negb].
    rewrite <- app_assoc. rewrite cread_app by apply le_bytes_length.
    destruct (image_size_bounds _ _ L Hmax) as (Hb1 & Hb2 & Hb3).
    rewrite le_val_le_bytes by exact Hb3.
    rewrite Hb1, Hb2.
    rewrite cread_app by apply eq_sym, Nat2N.id. rewrite B. reflexivity.
  - destruct R as [Hi R]. cbn [client_one]. unfold client_fetch_stripe. rewrite ss_current.
    assert (Ld : forall d, a = AData d -> length d = N.to_nat (512 * 2 ^ shift)).
    { intros d ->. destruct F as [F1 F2]. inversion R; eauto. }
    inversion R as [H1|h H1 H2 H3|h d H1 H2 H3 H4|h H1 H2 H3 H4|h H1 H2 H3|h d H1 H2 H3|h H1 H2 H3]; subst a;
      cbn [wire] in W; subst bytes; cbn [app]; rewrite cread_1; cbn [nth]; try reflexivity.
    all: change (0 =? STATUS_OK) with true; cbn match; specialize (Ld d eq_refl);
      rewrite <- app_assoc, cread_app by apply le_bytes_length;
      rewrite le_val_le_bytes by (change (256 ^ N.of_nat 8) with 18446744073709551616; lia);
      replace (N.of_nat (length d) =? 512 * 2 ^ shift) with true by lia; cbn [negb];
      rewrite cread_app by lia; reflexivity.
Qed.
