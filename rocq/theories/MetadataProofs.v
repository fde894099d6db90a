(** Proofs about the metadata format. *)
From Coq Require Import List Arith NArith ZArith Bool Lia ZifyBool ZifyNat ZifyN.
From Verif Require Import Base BaseFacts MetadataModel CrcProofs.
Import ListNotations.
Local Open Scope nat_scope.
Ltac Zify.zify_post_hook ::= Z.div_mod_to_equations.

Ltac consts := unfold SECTOR_SIZE, CRC32_SIZE, STRIPE_HEADERS_PER_SECTOR, UBI_MAGIC_SIZE,
  STRIPE_COUNT_OFFSET in *.

Definition sector_at (buf : list byte) (i : nat) : list byte :=
  firstn SECTOR_SIZE (skipn (i * SECTOR_SIZE) buf).

Definition crc_ok (sec : list byte) : bool :=
  bytes_eqb (skipn 508 sec) (compute_sector_crc32 (firstn 508 sec)).

Lemma sector_at_length : forall buf i,
  (S i * SECTOR_SIZE <= length buf) -> length (sector_at buf i) = SECTOR_SIZE.
Proof.
  intros buf i H. unfold sector_at. rewrite firstn_length, skipn_length. consts. lia.
Qed.

Lemma valid_ok : forall sec, length sec = SECTOR_SIZE -> sector_crc32_is_valid sec = Ok (crc_ok sec).
Proof.
  intros sec H. unfold sector_crc32_is_valid, crc_ok. consts.
  change (512 - 4) with 508.
  rewrite slice_ok by lia. cbn [bindr]. rewrite slice_ok by lia. cbn [bindr].
  replace (508 - 0) with 508 by lia. change (512 - 508) with 4.
  replace (firstn 4 (skipn 508 sec)) with (skipn 508 sec).
  - reflexivity.
  - symmetry. apply firstn_all2. rewrite skipn_length. lia.
Qed.

Definition group_data (buf : list byte) (g : nat) : list byte := firstn 508 (sector_at buf (S g)).

Fixpoint groups_ok (todo g : nat) (buf : list byte) : bool :=
  match todo with
  | O => true
  | S t => crc_ok (sector_at buf (S g)) && groups_ok t (S g) buf
  end.

Lemma groups_ok_spec : forall todo g buf,
  groups_ok todo g buf = true <-> (forall i, g <= i < g + todo -> crc_ok (sector_at buf (S i)) = true).
Proof.
  induction todo; intros g buf; cbn [groups_ok].
  - split; [intros _ i Hi; lia|reflexivity].
  - rewrite andb_true_iff, IHtodo. split.
    + intros [H1 H2] i Hi. destruct (Nat.eq_dec i g) as [->|]; [exact H1|]. apply H2. lia.
    + intros H. split; [apply H; lia|]. intros i Hi. apply H. lia.
Qed.

Lemma read_groups_spec : forall todo g buf acc,
  (S (g + todo)) * SECTOR_SIZE <= length buf ->
  read_groups todo g buf acc =
    if groups_ok todo g buf then Ok (acc ++ flat_map (group_data buf) (seq g todo)) else Err 7.
Proof.
  induction todo; intros g buf acc H; cbn [read_groups groups_ok seq flat_map].
  - now rewrite app_nil_r.
  - assert (Hs : length (sector_at buf (S g)) = SECTOR_SIZE) by (apply sector_at_length; consts; lia).
    replace (Nat.leb (SECTOR_SIZE + g * SECTOR_SIZE + SECTOR_SIZE) (length buf)) with true
      by (symmetry; apply Nat.leb_le; consts; lia).
    cbn [negb].
    rewrite slice_ok by (consts; lia). cbn [bindr].
    replace (firstn (SECTOR_SIZE + g * SECTOR_SIZE + SECTOR_SIZE - (SECTOR_SIZE + g * SECTOR_SIZE))
         (skipn (SECTOR_SIZE + g * SECTOR_SIZE) buf)) with (sector_at buf (S g))
      by (unfold sector_at; f_equal; lia).
    rewrite slice_ok by (rewrite ?Hs; consts; lia). cbn [bindr].
    rewrite (valid_ok _ Hs). cbn [bindr].
    destruct (crc_ok (sector_at buf (S g))) eqn:E; cbn [negb andb]; [|reflexivity].
    rewrite IHtodo by (consts; lia).
    destruct (groups_ok todo (S g) buf); [|reflexivity].
    rewrite <- app_assoc. do 2 f_equal.
Qed.

Lemma flat_map_const_length : forall {A} (f : nat -> list A) c t g,
  (forall i, g <= i < g + t -> length (f i) = c) ->
  length (flat_map f (seq g t)) = c * t.
Proof.
  induction t; intros g H; cbn [seq flat_map]; [cbn; lia|].
  rewrite app_length, IHt, H by (intros; try apply H; lia). lia.
Qed.

Lemma nth_flat_map : forall {A} (f : nat -> list A) (d : A) c t g j,
  0 < c -> (forall i, g <= i < g + t -> length (f i) = c) -> j < c * t ->
  nth j (flat_map f (seq g t)) d = nth (j mod c) (f (g + j / c)) d.
Proof.
  induction t; intros g j Hc H Hj; [lia|].
  cbn [seq flat_map].
  assert (Hg : length (f g) = c) by (apply H; lia).
  destruct (Nat.lt_ge_cases j c) as [Hlt|Hge].
  - rewrite app_nth1 by lia. rewrite Nat.mod_small, Nat.div_small by lia. f_equal. f_equal. lia.
  - rewrite app_nth2 by lia. rewrite Hg.
    rewrite IHt; [|lia|intros; apply H; lia|lia].
    assert (Hdm : j = (j - c) + 1 * c) by lia.
    rewrite Hdm at 3 4. rewrite Nat.mod_add, Nat.div_add by lia.
    f_equal. f_equal. lia.
Qed.

(** ** Exact description of [from_bytes]. *)
Definition header_count (buf : list byte) : N := le_val (firstn 4 (skipn 14 buf)).

Definition decoded_headers (buf : list byte) : list byte :=
  firstn (N.to_nat (header_count buf))
    (flat_map (group_data buf) (seq 0 (div_ceil (N.to_nat (header_count buf)) 508))).

Definition image_ok (buf : list byte) : bool :=
  (512 <=? length buf) && (length buf mod 512 =? 0) && crc_ok (sector_at buf 0)
  && bytes_eqb (firstn 9 buf) UBI_MAGIC
  && bytes_eqb (firstn 2 (skipn 9 buf)) [2%N; 0%N]
  && bytes_eqb (firstn 2 (skipn 11 buf)) [0%N; 0%N]
  && (nth 13 buf 0 <=? 17)%N
  && (header_count buf <=? N.of_nat (((length buf - 512) / 512) * 508))%N
  && groups_ok (div_ceil (N.to_nat (header_count buf)) 508) 0 buf.

Lemma skipn_cons_nth : forall {A} (l : list A) i d, i < length l ->
  skipn i l = nth i l d :: skipn (S i) l.
Proof.
  induction l as [|x l IH]; intros [|i] d H; cbn in *; try lia; [reflexivity|].
  apply IH. lia.
Qed.

Lemma first4 : forall (buf : list byte), 18 <= length buf ->
  firstn 4 (skipn 14 buf) = [nth 14 buf 0%N; nth 15 buf 0%N; nth 16 buf 0%N; nth 17 buf 0%N].
Proof.
  intros buf H.
  rewrite (skipn_cons_nth buf 14 0%N), (skipn_cons_nth buf 15 0%N),
    (skipn_cons_nth buf 16 0%N), (skipn_cons_nth buf 17 0%N) by lia. reflexivity.
Qed.

Lemma div_ceil_le : forall n c k, 0 < c -> n <= k * c -> div_ceil n c <= k.
Proof.
  intros n c k Hc H. unfold div_ceil.
  assert (n + (c - 1) < S k * c) by lia.
  apply Nat.lt_succ_r. apply Nat.div_lt_upper_bound; lia.
Qed.

Lemma div_ceil_ge : forall n c, 0 < c -> n <= c * div_ceil n c.
Proof.
  intros n c Hc. unfold div_ceil.
  pose proof (Nat.div_mod (n + (c - 1)) c). pose proof (Nat.mod_upper_bound (n + (c - 1)) c). lia.
Qed.

Lemma group_data_length : forall buf g, (S (S g)) * 512 <= length buf -> length (group_data buf g) = 508.
Proof.
  intros buf g H. unfold group_data. rewrite firstn_length, sector_at_length; consts; lia.
Qed.

Lemma mod_div_512 : forall n, n mod 512 = 0 -> n = 512 * (n / 512).
Proof. intros n H. pose proof (Nat.div_mod n 512). lia. Qed.

Lemma from_bytes_exact : forall buf,
  (image_ok buf = true ->
     from_bytes buf = Ok (mk_metadata UBI_MAGIC [2%N; 0%N] [0%N; 0%N] (nth 13 buf 0%N)
                            (decoded_headers buf)))
  /\ (image_ok buf = false -> exists t, from_bytes buf = Err t).
Proof.
  intros buf. unfold from_bytes, image_ok. consts.
  change (le_bytes 2 METADATA_VERSION_MAJOR) with [2%N; 0%N].
  change (le_bytes 2 METADATA_VERSION_MINOR) with [0%N; 0%N].
  destruct (Nat.ltb (length buf) 512) eqn:E1.
  { apply Nat.ltb_lt in E1. replace (512 <=? length buf) with false by (symmetry; apply Nat.leb_gt; lia).
    cbn [andb]. split; [discriminate|eauto]. }
  apply Nat.ltb_ge in E1. replace (512 <=? length buf) with true by (symmetry; apply Nat.leb_le; lia).
  cbn [andb].
  destruct (length buf mod 512 =? 0) eqn:E2; cbn [negb andb]; [|split; [discriminate|eauto]].
  apply Nat.eqb_eq in E2.
  rewrite (slice_ok buf 0 512) by lia. cbn [bindr].
  replace (firstn (512 - 0) (skipn 0 buf)) with (sector_at buf 0) by reflexivity.
  assert (L0 : length (sector_at buf 0) = SECTOR_SIZE) by (apply sector_at_length; consts; lia).
  rewrite (valid_ok _ L0). cbn [bindr].
  destruct (crc_ok (sector_at buf 0)) eqn:E3; cbn [negb andb]; [|split; [discriminate|eauto]].
  rewrite (slice_ok buf 0 9) by lia. cbn [bindr].
  change (firstn (9 - 0) (skipn 0 buf)) with (firstn 9 buf).
  destruct (bytes_eqb (firstn 9 buf) UBI_MAGIC) eqn:E4; cbn [negb andb]; [|split; [discriminate|eauto]].
  rewrite (slice_ok buf 9 (9 + 2)) by lia. cbn [bindr].
  rewrite (slice_ok buf (9 + 2) (9 + 4)) by lia. cbn [bindr].
  change (9 + 2 - 9) with 2. change (9 + 4 - (9 + 2)) with 2. change (9 + 2) with 11. change (9 + 4) with 13.
  destruct (bytes_eqb (firstn 2 (skipn 9 buf)) [2%N; 0%N]) eqn:E5; cbn [negb andb orb]; [|split; [discriminate|eauto]].
  destruct (bytes_eqb (firstn 2 (skipn 11 buf)) [0%N; 0%N]) eqn:E6; cbn [negb andb orb]; [|split; [discriminate|eauto]].
  rewrite (index_ok buf 13 0%N) by lia. cbn [bindr].
  unfold MAX_STRIPE_SECTOR_COUNT_SHIFT.
  destruct (17 <? nth 13 buf 0)%N eqn:E7.
  { apply N.ltb_lt in E7. replace (nth 13 buf 0 <=? 17)%N with false by (symmetry; apply N.leb_gt; lia).
    cbn [andb]. split; [discriminate|eauto]. }
  apply N.ltb_ge in E7. replace (nth 13 buf 0 <=? 17)%N with true by (symmetry; apply N.leb_le; lia).
  cbn [andb].
  change (14 + 1) with 15. change (14 + 2) with 16. change (14 + 3) with 17.
  rewrite (index_ok buf 14 0%N) by lia. cbn [bindr].
  rewrite (index_ok buf 15 0%N) by lia. cbn [bindr].
  rewrite (index_ok buf 16 0%N) by lia. cbn [bindr].
  rewrite (index_ok buf 17 0%N) by lia. cbn [bindr].
  rewrite <- (first4 buf) by lia. fold (header_count buf).
  destruct (N.of_nat ((length buf - 512) / 512 * 508) <? header_count buf)%N eqn:E8.
  { apply N.ltb_lt in E8.
    replace (header_count buf <=? N.of_nat ((length buf - 512) / 512 * 508))%N with false
      by (symmetry; apply N.leb_gt; lia).
    cbn [andb]. split; [discriminate|eauto]. }
  apply N.ltb_ge in E8.
  replace (header_count buf <=? N.of_nat ((length buf - 512) / 512 * 508))%N with true
    by (symmetry; apply N.leb_le; lia).
  cbn [andb].
  set (n := N.to_nat (header_count buf)).
  assert (Hn : n <= (length buf - 512) / 512 * 508) by (unfold n; lia).
  assert (Hd : div_ceil n 508 <= (length buf - 512) / 512) by (apply div_ceil_le; lia).
  assert (Hlen : length buf = 512 * (length buf / 512)) by (apply mod_div_512; exact E2).
  assert (Hk : (length buf - 512) / 512 = length buf / 512 - 1).
  { rewrite Hlen at 1. replace (512 * (length buf / 512) - 512) with ((length buf / 512 - 1) * 512) by lia.
    apply Nat.div_mul. lia. }
  rewrite read_groups_spec by (consts; lia).
  destruct (groups_ok (div_ceil n 508) 0 buf) eqn:E9; cbn [bindr];
    [|split; [discriminate|eauto]].
  cbn [app].
  assert (HL : length (flat_map (group_data buf) (seq 0 (div_ceil n 508))) = 508 * div_ceil n 508).
  { apply flat_map_const_length. intros i Hi. apply group_data_length. lia. }
  rewrite HL.
  pose proof (div_ceil_ge n 508).
  replace (n <=? 508 * div_ceil n 508) with true by (symmetry; apply Nat.leb_le; lia).
  cbn [negb].
  apply bytes_eqb_spec in E4, E5, E6. rewrite E4, E5, E6.
  split; [intros _; reflexivity|discriminate].
Qed.

Lemma decoded_headers_length : forall buf, image_ok buf = true ->
  length (decoded_headers buf) = N.to_nat (header_count buf) /\
  div_ceil (N.to_nat (header_count buf)) 508 < length buf / 512.
Proof.
  intros buf H. unfold image_ok in H. rewrite !andb_true_iff in H.
  destruct H as [[[[[[[[H1 H2] H3] H4] H5] H6] H7] H8] H9].
  apply Nat.leb_le in H1. apply Nat.eqb_eq in H2. apply N.leb_le in H8.
  set (n := N.to_nat (header_count buf)) in *.
  assert (Hlen : length buf = 512 * (length buf / 512)) by (apply mod_div_512; exact H2).
  assert (Hk : (length buf - 512) / 512 = length buf / 512 - 1).
  { rewrite Hlen at 1. replace (512 * (length buf / 512) - 512) with ((length buf / 512 - 1) * 512) by lia.
    apply Nat.div_mul. lia. }
  assert (Hd : div_ceil n 508 <= (length buf - 512) / 512) by (apply div_ceil_le; lia).
  pose proof (div_ceil_ge n 508).
  split; [|lia].
  unfold decoded_headers. fold n. rewrite firstn_length.
  rewrite (flat_map_const_length _ 508).
  - lia.
  - intros i Hi. apply group_data_length. lia.
Qed.

Lemma nth_firstn : forall {A} (l : list A) n i d, i < n -> nth i (firstn n l) d = nth i l d.
Proof.
  induction l as [|x l IH]; intros [|n] [|i] d H; cbn; try lia; auto. apply IH. lia.
Qed.

Lemma nth_skipn : forall {A} (l : list A) n i d, nth i (skipn n l) d = nth (n + i) l d.
Proof.
  induction l as [|x l IH]; intros [|n] i d; cbn; auto. destruct i; reflexivity.
Qed.

Lemma decoded_headers_nth : forall buf i d, image_ok buf = true ->
  i < N.to_nat (header_count buf) ->
  nth i (decoded_headers buf) d = nth (512 * (1 + i / 508) + i mod 508) buf d.
Proof.
  intros buf i d H Hi. pose proof (decoded_headers_length buf H) as [HL HD].
  unfold decoded_headers. rewrite nth_firstn by lia.
  pose proof (div_ceil_ge (N.to_nat (header_count buf)) 508).
  assert (Hlen : length buf = 512 * (length buf / 512)).
  { apply mod_div_512. unfold image_ok in H. rewrite !andb_true_iff in H.
    destruct H as [[[[[[[[H1 H2] _] _] _] _] _] _] _]. now apply Nat.eqb_eq in H2. }
  rewrite (nth_flat_map _ d 508); [|lia| |lia].
  - unfold group_data, sector_at. cbn [Nat.add].
    pose proof (Nat.mod_upper_bound i 508).
    rewrite nth_firstn by lia. rewrite nth_firstn by (consts; lia).
    rewrite nth_skipn. f_equal. consts. lia.
  - intros j Hj. apply group_data_length. lia.
Qed.

(** ** Serialisation. *)
Definition chunk (hs : list byte) (g : nat) : list byte := firstn 508 (skipn (g * 508) hs).

Definition sector_image (contents : list byte) : list byte :=
  let body := contents ++ repeat 0%N (508 - length contents) in body ++ compute_sector_crc32 body.

Lemma sector_image_length : forall c, length c <= 508 -> length (sector_image c) = 512.
Proof.
  intros c H. unfold sector_image. rewrite !app_length, repeat_length.
  unfold compute_sector_crc32. rewrite le_bytes_length. consts. lia.
Qed.

Lemma write_sector_ok : forall c, length c <= 508 -> write_sector_with_crc32 c = Ok (sector_image c).
Proof.
  intros c H. unfold write_sector_with_crc32. consts. change (512 - 4) with 508.
  replace (length c <=? 508) with true by (symmetry; apply Nat.leb_le; lia). reflexivity.
Qed.

Lemma crc_ok_sector_image : forall c, length c <= 508 -> crc_ok (sector_image c) = true.
Proof.
  intros c H. unfold crc_ok, sector_image.
  set (body := c ++ repeat 0%N (508 - length c)).
  assert (Hb : length body = 508) by (unfold body; rewrite app_length, repeat_length; lia).
  rewrite (skipn_app_exact _ _ 508 Hb), (firstn_app_exact _ _ 508 Hb). apply bytes_eqb_refl.
Qed.

Lemma slice_chunk : forall hs g, g * 508 <= length hs ->
  slice hs (g * 508) (Nat.min (g * 508 + 508) (length hs)) = Ok (chunk hs g).
Proof.
  intros hs g H. rewrite slice_ok by lia. f_equal. unfold chunk.
  destruct (Nat.le_gt_cases (g * 508 + 508) (length hs)).
  - rewrite Nat.min_l by lia. f_equal. lia.
  - rewrite Nat.min_r by lia.
    rewrite !firstn_all2; [reflexivity| |]; rewrite skipn_length; lia.
Qed.

Lemma chunk_length : forall hs g, length (chunk hs g) <= 508.
Proof. intros. unfold chunk. rewrite firstn_length. lia. Qed.

Lemma splice_mid : forall {A} (l : list A) a b n,
  a + length n = b -> b <= length l ->
  splice l a n = firstn a l ++ n ++ skipn b l.
Proof. intros A l a b n H1 H2. unfold splice. rewrite H1. reflexivity. Qed.

Lemma write_groups_spec : forall todo g hs buf,
  (S (g + todo)) * 512 <= length buf ->
  (forall i, g <= i < g + todo -> i * 508 <= length hs) ->
  write_groups todo g hs buf =
    Ok (firstn (S g * 512) buf
        ++ flat_map (fun i => sector_image (chunk hs i)) (seq g todo)
        ++ skipn (S (g + todo) * 512) buf).
Proof.
  induction todo; intros g hs buf HL HH; cbn [write_groups seq flat_map].
  - rewrite Nat.add_0_r. cbn [app]. rewrite firstn_skipn. reflexivity.
  - consts. rewrite slice_chunk by (apply HH; lia). cbn [bindr].
    replace (512 + g * 512 + 512 <=? length buf) with true by (symmetry; apply Nat.leb_le; lia).
    cbn [negb]. rewrite write_sector_ok by apply chunk_length. cbn [bindr].
    set (sec := sector_image (chunk hs g)).
    assert (Hs : length sec = 512) by (apply sector_image_length, chunk_length).
    assert (Hsp : splice buf (512 + g * 512) sec
              = firstn (S g * 512) buf ++ sec ++ skipn (S (S g) * 512) buf).
    { rewrite (splice_mid buf (512 + g * 512) (S (S g) * 512)) by lia. repeat f_equal; lia. }
    rewrite Hsp.
    assert (Hf : length (firstn (S g * 512) buf) = S g * 512) by (rewrite firstn_length; lia).
    rewrite IHtodo.
    + f_equal.
      assert (Efst : firstn (S (S g) * 512) (firstn (S g * 512) buf ++ sec ++ skipn (S (S g) * 512) buf)
                     = firstn (S g * 512) buf ++ sec).
      { rewrite app_assoc. apply firstn_app_exact. rewrite app_length. lia. }
      rewrite Efst.
      rewrite <- app_assoc. f_equal. rewrite <- app_assoc. f_equal. f_equal.
      rewrite !skipn_app, Hf, Hs.
      rewrite (skipn_all2 (firstn (S g * 512) buf)) by lia. cbn [app].
      rewrite (skipn_all2 sec) by lia. cbn [app].
      assert (Hss : forall a b (l : list byte), skipn a (skipn b l) = skipn (a + b) l).
      { induction b as [|b IHb]; intros l; [now rewrite Nat.add_0_r|].
        rewrite Nat.add_succ_r. destruct l; cbn [skipn]; [now destruct a|]. apply IHb. }
      rewrite Hss. f_equal. lia.
    + rewrite !app_length, Hf, Hs, skipn_length. lia.
    + intros i Hi. apply HH. lia.
Qed.

Definition meta_wf (m : metadata) : Prop :=
  md_magic m = UBI_MAGIC /\ md_version_major m = [2%N; 0%N] /\ md_version_minor m = [0%N; 0%N]
  /\ (md_shift m <= 17)%N /\ (N.of_nat (length (md_headers m)) < 2 ^ 32)%N.

Definition header_bytes (m : metadata) : list byte :=
  md_magic m ++ md_version_major m ++ md_version_minor m ++ [md_shift m]
    ++ le_bytes 4 (N.of_nat (length (md_headers m))).

Definition encoded (m : metadata) : list byte :=
  sector_image (header_bytes m)
  ++ flat_map (fun i => sector_image (chunk (md_headers m) i)) (seq 0 (stripe_header_sector_count m)).

Lemma header_bytes_length : forall m, meta_wf m -> length (header_bytes m) = 18.
Proof.
  intros m (H1 & H2 & H3 & _). unfold header_bytes.
  rewrite !app_length, le_bytes_length, H1, H2, H3. reflexivity.
Qed.

Lemma encoded_length : forall m, meta_wf m -> length (encoded m) = metadata_size m.
Proof.
  intros m H. unfold encoded, metadata_size. rewrite app_length.
  rewrite sector_image_length by (rewrite header_bytes_length by exact H; lia).
  rewrite (flat_map_const_length _ 512).
  - consts. lia.
  - intros. apply sector_image_length, chunk_length.
Qed.

Lemma div_ceil_lt : forall n c i, 0 < c -> i < div_ceil n c -> i * c < n.
Proof.
  intros n c i Hc H. unfold div_ceil in H.
  destruct (Nat.lt_ge_cases (i * c) n) as [|Hge]; [assumption|].
  assert ((n + (c - 1)) / c < S i) by (apply Nat.div_lt_upper_bound; lia). lia.
Qed.

Lemma write_to_buf_ok : forall m buf, meta_wf m -> metadata_size m <= length buf ->
  write_to_buf m buf = Ok (encoded m ++ skipn (metadata_size m) buf).
Proof.
  intros m buf Hwf Hlen. pose proof Hwf as (H1 & H2 & H3 & H4 & H5).
  unfold write_to_buf.
  replace (length buf <? metadata_size m) with false by (symmetry; apply Nat.ltb_ge; lia).
  replace (N.of_nat (length (md_headers m)) <? 2 ^ 32)%N with true by (symmetry; apply N.ltb_lt; exact H5).
  cbn [negb]. fold (header_bytes m).
  rewrite write_sector_ok by (rewrite header_bytes_length by exact Hwf; lia). cbn [bindr].
  set (sec := sector_image (header_bytes m)).
  assert (Hs : length sec = 512) by (apply sector_image_length; rewrite header_bytes_length by exact Hwf; lia).
  unfold metadata_size in *. consts.
  set (k := stripe_header_sector_count m) in *.
  assert (Hsp : splice buf 0 sec = sec ++ skipn 512 buf).
  { rewrite (splice_mid buf 0 512) by lia. reflexivity. }
  rewrite Hsp.
  rewrite write_groups_spec.
  - f_equal. unfold encoded. fold sec. fold k.
    rewrite (firstn_app_exact sec _ (1 * 512)) by lia.
    rewrite <- app_assoc. f_equal. f_equal.
    rewrite skipn_app, Hs. rewrite (skipn_all2 sec) by lia. cbn [app].
    assert (Hss : forall a b (l : list byte), skipn a (skipn b l) = skipn (a + b) l).
    { induction b as [|b IHb]; intros l; [now rewrite Nat.add_0_r|].
      rewrite Nat.add_succ_r. destruct l; cbn [skipn]; [now destruct a|]. apply IHb. }
    rewrite Hss. f_equal. lia.
  - rewrite app_length, skipn_length, Hs. lia.
  - intros i Hi. unfold k, stripe_header_sector_count in Hi. consts.
    apply Nat.lt_le_incl. apply (div_ceil_lt _ 508); lia.
Qed.

Lemma sector_at_app_l : forall a b i, S i * 512 <= length a -> sector_at (a ++ b) i = sector_at a i.
Proof.
  intros a b i H. unfold sector_at. consts. rewrite skipn_app, firstn_app, skipn_length.
  replace (512 - (length a - i * 512)) with 0 by lia. cbn. apply app_nil_r.
Qed.

Lemma sector_at_flat : forall f t g i, (forall j, length (f j) = 512) -> i < t ->
  sector_at (flat_map f (seq g t)) i = f (g + i).
Proof.
  induction t; intros g i Hf Hi; [lia|]. cbn [seq flat_map].
  destruct i.
  - rewrite sector_at_app_l by (rewrite Hf; lia). unfold sector_at. cbn [Nat.mul skipn].
    rewrite firstn_all2 by (rewrite Hf; consts; lia). f_equal. lia.
  - unfold sector_at in *. consts.
    rewrite skipn_app, Hf. rewrite (skipn_all2 (f g)) by (rewrite Hf; lia). cbn [app].
    replace (S i * 512 - 512) with (i * 512) by lia.
    rewrite IHt by (auto; lia). f_equal. lia.
Qed.

Lemma sector_at_encoded_0 : forall m rest, meta_wf m ->
  sector_at (encoded m ++ rest) 0 = sector_image (header_bytes m).
Proof.
  intros m rest H.
  assert (Hs : length (sector_image (header_bytes m)) = 512)
    by (apply sector_image_length; rewrite header_bytes_length by exact H; lia).
  unfold encoded. rewrite <- app_assoc. rewrite sector_at_app_l by lia.
  unfold sector_at. cbn [Nat.mul skipn]. apply firstn_all2. consts. lia.
Qed.

Lemma sector_at_encoded_S : forall m rest i, meta_wf m -> i < stripe_header_sector_count m ->
  sector_at (encoded m ++ rest) (S i) = sector_image (chunk (md_headers m) i).
Proof.
  intros m rest i H Hi.
  assert (Hs : length (sector_image (header_bytes m)) = 512)
    by (apply sector_image_length; rewrite header_bytes_length by exact H; lia).
  assert (Hf : forall j, length ((fun i => sector_image (chunk (md_headers m) i)) j) = 512)
    by (intro; apply sector_image_length, chunk_length).
  rewrite sector_at_app_l.
  - unfold encoded.
    pose proof (sector_at_flat (fun i => sector_image (chunk (md_headers m) i))
                  (stripe_header_sector_count m) 0 i Hf Hi) as E.
    cbn [Nat.add] in E. rewrite <- E.
    unfold sector_at. consts. rewrite skipn_app, Hs.
    rewrite (skipn_all2 (sector_image _)) by lia. cbn [app]. f_equal. f_equal. lia.
  - rewrite encoded_length by exact H. unfold metadata_size. consts. lia.
Qed.

Lemma header_count_encoded : forall m rest, meta_wf m ->
  header_count (encoded m ++ rest) = N.of_nat (length (md_headers m)).
Proof.
  intros m rest H. pose proof H as (H1 & H2 & H3 & H4 & H5).
  unfold header_count, encoded, sector_image, header_bytes.
  rewrite H1, H2, H3. unfold UBI_MAGIC. rewrite <- !app_assoc. cbn [app skipn].
  rewrite <- ?app_assoc.
  rewrite (firstn_app_exact (le_bytes 4 _)) by apply le_bytes_length.
  apply le_val_le_bytes. exact H5.
Qed.

Lemma nth_chunk : forall hs g j d, j < 508 -> nth j (chunk hs g) d = nth (g * 508 + j) hs d.
Proof. intros. unfold chunk. rewrite nth_firstn by lia. apply nth_skipn. Qed.

Lemma nth_sector_image : forall c j, length c <= 508 -> j < 508 ->
  nth j (sector_image c) 0%N = nth j c 0%N.
Proof.
  intros c j Hc Hj. unfold sector_image.
  rewrite app_nth1 by (rewrite app_length, repeat_length; lia).
  destruct (Nat.lt_ge_cases j (length c)).
  - now rewrite app_nth1 by lia.
  - rewrite app_nth2 by lia. rewrite nth_repeat. symmetry. apply nth_overflow. lia.
Qed.

Lemma image_ok_encoded : forall m rest, meta_wf m ->
  length rest mod 512 = 0 -> image_ok (encoded m ++ rest) = true.
Proof.
  intros m rest H Hr. pose proof H as (H1 & H2 & H3 & H4 & H5).
  assert (HL : length (encoded m ++ rest) = 512 * (1 + stripe_header_sector_count m + length rest / 512)).
  { rewrite app_length, encoded_length by exact H. unfold metadata_size. consts.
    pose proof (mod_div_512 _ Hr). lia. }
  unfold image_ok. rewrite !andb_true_iff. repeat split.
  - apply Nat.leb_le. lia.
  - apply Nat.eqb_eq. rewrite HL. rewrite Nat.mul_comm. apply Nat.mod_mul. lia.
  - rewrite sector_at_encoded_0 by exact H. apply crc_ok_sector_image.
    rewrite header_bytes_length by exact H. lia.
  - unfold encoded, sector_image, header_bytes. rewrite H1. reflexivity.
  - unfold encoded, sector_image, header_bytes. rewrite H1, H2. reflexivity.
  - unfold encoded, sector_image, header_bytes. rewrite H1, H2, H3. reflexivity.
  - unfold encoded, sector_image, header_bytes. rewrite H1, H2, H3. apply N.leb_le. exact H4.
  - rewrite header_count_encoded by exact H. apply N.leb_le.
    rewrite HL. replace (512 * (1 + stripe_header_sector_count m + length rest / 512) - 512)
      with ((stripe_header_sector_count m + length rest / 512) * 512) by lia.
    rewrite Nat.div_mul by lia.
    pose proof (div_ceil_ge (length (md_headers m)) 508).
    unfold stripe_header_sector_count. consts. lia.
  - rewrite header_count_encoded by exact H. rewrite Nnat.Nat2N.id.
    apply groups_ok_spec. intros i Hi.
    rewrite sector_at_encoded_S by (auto; change (stripe_header_sector_count m) with (div_ceil (length (md_headers m)) 508); lia).
    apply crc_ok_sector_image, chunk_length.
Qed.

Lemma decoded_encoded : forall m rest, meta_wf m -> length rest mod 512 = 0 ->
  decoded_headers (encoded m ++ rest) = md_headers m.
Proof.
  intros m rest H Hr.
  pose proof (image_ok_encoded m rest H Hr) as Hok.
  pose proof (decoded_headers_length _ Hok) as [HL HD].
  rewrite header_count_encoded, Nnat.Nat2N.id in HL, HD by exact H.
  apply (nth_ext _ _ 0%N 0%N); [exact HL|].
  intros i Hi. rewrite HL in Hi.
  rewrite decoded_headers_nth by (auto; rewrite header_count_encoded by exact H; lia).
  assert (Hg : i / 508 < stripe_header_sector_count m).
  { unfold stripe_header_sector_count, div_ceil. consts. lia. }
  pose proof (sector_at_encoded_S m rest (i / 508) H Hg) as E.
  pose proof (Nat.mod_upper_bound i 508).
  assert (E2 : nth (i mod 508) (sector_at (encoded m ++ rest) (S (i / 508))) 0%N
               = nth (512 * (1 + i / 508) + i mod 508) (encoded m ++ rest) 0%N).
  { unfold sector_at. rewrite nth_firstn by (consts; lia). rewrite nth_skipn. f_equal. consts. lia. }
  rewrite <- E2, E, nth_sector_image by (auto using chunk_length; lia).
  rewrite nth_chunk by lia. f_equal. lia.
Qed.

Lemma roundtrip : forall m buf, meta_wf m -> metadata_size m <= length buf -> length buf mod 512 = 0 ->
  exists buf', write_to_buf m buf = Ok buf' /\ length buf' = length buf /\
    skipn (metadata_size m) buf' = skipn (metadata_size m) buf /\ from_bytes buf' = Ok m.
Proof.
  intros m buf H Hl Hm. exists (encoded m ++ skipn (metadata_size m) buf).
  assert (Hsz : metadata_size m = 512 * (1 + stripe_header_sector_count m))
    by (unfold metadata_size; consts; lia).
  assert (Hr : length (skipn (metadata_size m) buf) mod 512 = 0).
  { rewrite skipn_length. rewrite Hsz. lia. }
  split; [apply write_to_buf_ok; assumption|].
  pose proof (encoded_length m H) as HE.
  split; [rewrite app_length, skipn_length; lia|].
  split; [apply skipn_app_exact; exact HE|].
  pose proof (from_bytes_exact (encoded m ++ skipn (metadata_size m) buf)) as [E _].
  rewrite E by (apply image_ok_encoded; assumption).
  rewrite decoded_encoded by assumption.
  pose proof H as (H1 & H2 & H3 & _).
  destruct m as [mg vj vn sh hs]. cbn [md_magic md_version_major md_version_minor] in *. subst.
  reflexivity.
Qed.

(** ** Burst errors. *)
Lemma crc_ok_val : forall sec, bytes_ok sec -> length sec = 512 -> crc_ok sec = true ->
  le_val (skipn 508 sec) = crc32 (firstn 508 sec).
Proof.
  intros sec Hb Hl H. unfold crc_ok in H. apply bytes_eqb_spec in H. rewrite H.
  unfold compute_sector_crc32, CRC32_SIZE. apply le_val_le_bytes.
  apply crc32_bound. now apply bytes_ok_firstn.
Qed.

Lemma burst_detected : forall sec sec' burst k,
  bytes_ok sec -> bytes_ok sec' -> length sec = 512 -> length sec' = 512 ->
  crc_ok sec = true ->
  le_val sec' = N.lxor (le_val sec) (burst * 2 ^ N.of_nat k) ->
  (0 < burst < 2 ^ 32)%N -> k < 4096 -> crc_ok sec' = false.
Proof.
  intros sec sec' burst k Hb Hb' Hl Hl' Hok Hx Hbu Hk.
  destruct (crc_ok sec') eqn:E; [|reflexivity]. exfalso.
  pose proof (crc_ok_val sec Hb Hl Hok) as V.
  pose proof (crc_ok_val sec' Hb' Hl' E) as V'.
  assert (burst = 0%N); [|lia].
  apply (crc_burst (firstn 508 sec) (firstn 508 sec') (skipn 508 sec) (skipn 508 sec') burst k);
    auto using bytes_ok_firstn, bytes_ok_skipn;
    rewrite ?firstn_length, ?skipn_length, ?firstn_skipn; try lia.
Qed.

Lemma from_bytes_ok_inv : forall buf m, from_bytes buf = Ok m ->
  image_ok buf = true /\ m = mk_metadata UBI_MAGIC [2%N; 0%N] [0%N; 0%N] (nth 13 buf 0%N) (decoded_headers buf).
Proof.
  intros buf m H. pose proof (from_bytes_exact buf) as [H1 H2].
  destruct (image_ok buf) eqn:E.
  - rewrite H1 in H by reflexivity. split; [reflexivity|]. congruence.
  - destruct (H2 eq_refl) as [t Ht]. congruence.
Qed.

Lemma bytes_ok_sector_at : forall buf i, bytes_ok buf -> bytes_ok (sector_at buf i).
Proof. intros. unfold sector_at. now apply bytes_ok_firstn, bytes_ok_skipn. Qed.

Lemma burst_rejected : forall buf m i buf' burst k,
  bytes_ok buf -> bytes_ok buf' -> length buf' = length buf ->
  from_bytes buf = Ok m ->
  i <= stripe_header_sector_count m ->
  (forall j, j <> i -> sector_at buf' j = sector_at buf j) ->
  le_val (sector_at buf' i) = N.lxor (le_val (sector_at buf i)) (burst * 2 ^ N.of_nat k) ->
  (0 < burst < 2 ^ 32)%N -> k < 4096 ->
  is_err (from_bytes buf') = true.
Proof.
  intros buf m i buf' burst k Hb Hb' Hl Hok Hi Hsame Hx Hbu Hk.
  apply from_bytes_ok_inv in Hok. destruct Hok as [Hok Hm].
  pose proof (decoded_headers_length buf Hok) as [HL HD].
  assert (Hcnt : stripe_header_sector_count m = div_ceil (N.to_nat (header_count buf)) 508).
  { subst m. unfold stripe_header_sector_count. cbn [md_headers]. rewrite HL. reflexivity. }
  pose proof Hok as Hok'. unfold image_ok in Hok'. rewrite !andb_true_iff in Hok'.
  destruct Hok' as [[[[[[[[H1 H2] H3] H4] H5] H6] H7] H8] H9].
  apply Nat.eqb_eq in H2. pose proof (mod_div_512 _ H2) as Hd.
  assert (Hsl : length (sector_at buf i) = 512) by (apply sector_at_length; consts; lia).
  assert (Hsl' : length (sector_at buf' i) = 512) by (apply sector_at_length; consts; lia).
  assert (Hcrc : crc_ok (sector_at buf i) = true).
  { destruct i as [|i]; [exact H3|]. rewrite groups_ok_spec in H9. apply H9. lia. }
  assert (Hbad : crc_ok (sector_at buf' i) = false)
    by (apply (burst_detected (sector_at buf i) (sector_at buf' i) burst k); auto using bytes_ok_sector_at).
  destruct (from_bytes_exact buf') as [_ HE].
  assert (Hnot : image_ok buf' = false).
  { destruct (image_ok buf') eqn:E; [|reflexivity]. exfalso.
    unfold image_ok in E. rewrite !andb_true_iff in E.
    destruct E as [[[[[[[[G1 G2] G3] G4] G5] G6] G7] G8] G9].
    destruct i as [|i]; [congruence|].
    assert (Hc : header_count buf' = header_count buf).
    { unfold header_count. f_equal.
      assert (Hs0 : sector_at buf' 0 = sector_at buf 0) by (apply Hsame; lia).
      apply (f_equal (fun l => firstn 4 (skipn 14 l))) in Hs0.
      unfold sector_at in Hs0. change (0 * SECTOR_SIZE) with 0 in Hs0. rewrite !skipn_O in Hs0.
      rewrite !skipn_firstn_comm, !firstn_firstn in Hs0. consts.
      replace (Nat.min 4 (512 - 14)) with 4 in Hs0 by reflexivity. exact Hs0. }
    rewrite Hc in G9. rewrite groups_ok_spec in G9.
    rewrite G9 in Hbad by lia. discriminate. }
  destruct (HE Hnot) as [t Ht]. rewrite Ht. reflexivity.
Qed.

(** ** Locality of a single-header update. *)
Lemma set_nth_chunk_neq : forall i x hs g, i / 508 <> g -> chunk (set_nth i x hs) g = chunk hs g.
Proof.
  intros i x hs g H. apply (nth_ext _ _ 0%N 0%N).
  - unfold chunk. rewrite !firstn_length, !skipn_length, set_nth_length. reflexivity.
  - intros j Hj. assert (j < 508) by (pose proof (chunk_length (set_nth i x hs) g); lia).
    rewrite !nth_chunk by lia. apply nth_set_nth_neq. lia.
Qed.

Lemma flusher_sector_ok : forall hs i, i < length hs ->
  flusher_sector hs i = Ok (sector_image (chunk hs (i / 508))).
Proof.
  intros hs i H. unfold flusher_sector, stripe_id_to_group. consts.
  rewrite slice_chunk.
  - cbn [bindr]. apply write_sector_ok, chunk_length.
  - lia.
Qed.

Lemma encoded_update : forall m i h, meta_wf m -> i < length (md_headers m) ->
  let m' := mk_metadata (md_magic m) (md_version_major m) (md_version_minor m) (md_shift m)
                        (set_nth i h (md_headers m)) in
  encoded m' = splice (encoded m) (stripe_id_to_sector i * 512)
                 (sector_image (chunk (set_nth i h (md_headers m)) (i / 508))).
Proof.
  intros m i h H Hi m'.
  assert (Hwf' : meta_wf m').
  { destruct H as (H1 & H2 & H3 & H4 & H5). unfold m'. repeat split; cbn; auto.
    rewrite set_nth_length. exact H5. }
  assert (Hk : stripe_header_sector_count m' = stripe_header_sector_count m).
  { unfold stripe_header_sector_count, m'. cbn [md_headers]. now rewrite set_nth_length. }
  assert (Hg : i / 508 < stripe_header_sector_count m).
  { unfold stripe_header_sector_count, div_ceil. consts. lia. }
  set (sec := sector_image (chunk (set_nth i h (md_headers m)) (i / 508))).
  assert (Hsec : length sec = 512) by (apply sector_image_length, chunk_length).
  pose proof (encoded_length m H) as HL. pose proof (encoded_length m' Hwf') as HL'.
  unfold metadata_size in HL, HL'. rewrite Hk in HL'. consts.
  assert (Hpos : stripe_id_to_sector i = S (i / 508)) by (unfold stripe_id_to_sector; consts; lia).
  apply (nth_ext _ _ 0%N 0%N).
  { rewrite splice_length; rewrite ?Hpos, ?Hsec; lia. }
  intros j Hj.
  (* compare sector by sector *)
  assert (HS : forall (l : list byte) j, j < length l -> length l = 512 + stripe_header_sector_count m * 512 ->
            nth j l 0%N = nth (j mod 512) (sector_at l (j / 512)) 0%N).
  { intros l j0 Hj0 _. unfold sector_at. consts. pose proof (Nat.mod_upper_bound j0 512).
    rewrite nth_firstn by lia. rewrite nth_skipn. f_equal. lia. }
  rewrite (HS (encoded m') j Hj HL').
  rewrite (HS (splice (encoded m) (stripe_id_to_sector i * 512) sec) j);
    try (rewrite splice_length; rewrite ?Hpos, ?Hsec; lia).
  f_equal.
  assert (Hsp : forall q, q <= stripe_header_sector_count m ->
            sector_at (splice (encoded m) (stripe_id_to_sector i * 512) sec) q
            = if Nat.eqb q (S (i / 508)) then sec else sector_at (encoded m) q).
  { intros q Hq. rewrite Hpos. unfold splice, sector_at. consts. rewrite Hsec.
    assert (Hf : length (firstn (S (i / 508) * 512) (encoded m)) = S (i / 508) * 512)
      by (rewrite firstn_length; lia).
    destruct (Nat.eqb q (S (i / 508))) eqn:Eq.
    - apply Nat.eqb_eq in Eq. subst q.
      rewrite (skipn_app_exact _ _ _ Hf). apply firstn_app_exact. exact Hsec.
    - apply Nat.eqb_neq in Eq.
      destruct (Nat.lt_ge_cases q (S (i / 508))) as [Hlt|Hge].
      + rewrite skipn_app, firstn_app, skipn_length, Hf.
        replace (512 - (S (i / 508) * 512 - q * 512)) with 0 by lia. rewrite firstn_O, app_nil_r.
        rewrite skipn_firstn_comm. rewrite firstn_firstn. f_equal. lia.
      + rewrite skipn_app, Hf. rewrite (skipn_all2 (firstn _ _)) by lia. cbn [app].
        rewrite skipn_app, Hsec. rewrite (skipn_all2 sec) by lia. cbn [app].
        assert (Hss : forall a b (l : list byte), skipn a (skipn b l) = skipn (a + b) l).
        { induction b as [|b IHb]; intros l; [now rewrite Nat.add_0_r|].
          rewrite Nat.add_succ_r. destruct l; cbn [skipn]; [now destruct a|]. apply IHb. }
        rewrite Hss. f_equal. f_equal. lia. }
  rewrite Hsp by lia.
  assert (Hq : j / 512 <= stripe_header_sector_count m) by lia.
  destruct (j / 512) as [|q] eqn:Ejq.
  - cbn [Nat.eqb]. rewrite <- (app_nil_r (encoded m')), <- (app_nil_r (encoded m)).
    rewrite !sector_at_encoded_0 by assumption.
    unfold header_bytes, m'. cbn [md_magic md_version_major md_version_minor md_shift md_headers].
    now rewrite set_nth_length.
  - rewrite <- (app_nil_r (encoded m')), <- (app_nil_r (encoded m)).
    rewrite !sector_at_encoded_S by (auto; lia).
    cbn [Nat.eqb]. destruct (Nat.eqb q (i / 508)) eqn:Eq.
    + apply Nat.eqb_eq in Eq. subst q. reflexivity.
    + apply Nat.eqb_neq in Eq. unfold m'. cbn [md_headers]. now rewrite set_nth_chunk_neq by lia.
Qed.
