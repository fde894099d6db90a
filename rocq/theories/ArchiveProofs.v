(** Codec-level proofs about archives. *)
From Coq Require Import List Arith NArith ZArith Bool Lia Sorted ZifyBool ZifyNat ZifyN.
Import ListNotations.
From Verif Require Import Base BaseFacts ListFacts CryptModel CryptSpec CryptProofs KeyModel CryptProps
  ArchiveModel ArchiverModel ArchiveSpec.
Ltac Zify.zify_post_hook ::= Z.div_mod_to_equations.

Lemma pad_len_spec : forall n, (n + pad_len n) mod 512 = 0 /\ pad_len n < 512.
Proof. intros n. unfold pad_len, SECTOR. lia. Qed.

Lemma pad_length : forall l, length (pad l) = length l + pad_len (length l).
Proof. intros l. unfold pad. now rewrite app_length, repeat_length. Qed.

Lemma pad_aligned : forall l, length (pad l) mod SECTOR = 0.
Proof. intros l. rewrite pad_length. apply pad_len_spec. Qed.

Lemma aligned_exists : forall n, n mod SECTOR = 0 -> n = n / SECTOR * 512.
Proof. intros n H. unfold SECTOR in *. lia. Qed.

Section Codec.
Variable P : prims.
Hypothesis L : lawful P.

(** Compression framing. *)
Lemma payload_of_header : forall c, (N.of_nat (length c) < 2 ^ 32)%N ->
  compressed_payload (pad (le_bytes 4 (N.of_nat (length c)) ++ c)) = Ok c.
Proof.
  intros c Hc. unfold compressed_payload.
  assert (HL : length (pad (le_bytes 4 (N.of_nat (length c)) ++ c)) =
     4 + length c + pad_len (4 + length c)).
  { rewrite pad_length, app_length, le_bytes_length. reflexivity. }
  rewrite HL. replace (4 + length c + pad_len (4 + length c) <? 4) with false by lia.
  assert (HS : slice (pad (le_bytes 4 (N.of_nat (length c)) ++ c)) 0 4 = Ok (le_bytes 4 (N.of_nat (length c)))).
  { rewrite slice_ok by lia. rewrite skipn_O. unfold pad. rewrite <- app_assoc.
    now rewrite firstn_app_exact by apply le_bytes_length. }
  rewrite HS. cbn [bindr]. rewrite le_val_le_bytes by exact Hc.
  replace (_ <? N.of_nat (length c) + 4)%N with false by lia.
  rewrite slice_ok by lia. f_equal. unfold pad. rewrite <- app_assoc.
  rewrite skipn_app_exact by apply le_bytes_length.
  replace (N.to_nat (N.of_nat (length c)) + 4 - 4) with (length c) by lia.
  now rewrite firstn_app_exact.
Qed.

Lemma compress_aligned : forall a d o, compress P a d = Ok o -> length o mod SECTOR = 0.
Proof.
  intros a d o H. unfold compress in H. destruct (negb _) eqn:E; [discriminate|].
  destruct a as [|level].
  - injection H as <-. lia.
  - unfold with_size_header in H. destruct (_ <=? _)%N; [discriminate|].
    apply Ok_inj in H. subst o. apply pad_aligned.
Qed.

Lemma decompress_compress : forall a d o, compress P a d = Ok o -> decompress P a o = Ok d.
Proof.
  intros a d o H. unfold compress in H. destruct (negb _) eqn:E; [discriminate|].
  destruct a as [|level]; cbn [decompress].
  - congruence.
  - unfold with_size_header in H. destruct (2 ^ 32 <=? _)%N eqn:E2; [discriminate|].
    apply Ok_inj in H. subst o. rewrite payload_of_header by lia. cbn [bindr].
    rewrite (l_zstd P L). unfold ensure_sector_aligned.
    apply negb_false_iff in E. now rewrite E.
Qed.

Lemma compressed_payload_total : forall d, compressed_payload d <> Panic.
Proof.
  intros d. unfold compressed_payload. destruct (length d <? 4) eqn:E; [discriminate|].
  rewrite slice_ok by lia. cbn [bindr]. destruct (_ <? _)%N eqn:E2; [discriminate|].
  rewrite slice_ok by lia. discriminate.
Qed.

Lemma decompress_total : forall a d, decompress P a d <> Panic.
Proof.
  intros a d. unfold decompress, ensure_sector_aligned. destruct a; [discriminate|].
  pose proof (compressed_payload_total d). destruct (compressed_payload d); try discriminate; [|contradiction].
  cbn [bindr]. destruct (zdec P a); [|discriminate]. destruct (_ =? _); discriminate.
Qed.

(** XTS on a whole aligned buffer. *)
Lemma xts_enc_dec : forall k buf start, length buf mod SECTOR = 0 ->
  exists ct, xts_process (xenc P k) buf start (length buf / SECTOR) = Ok ct /\ length ct = length buf /\
    xts_process (xdec P k) ct start (length ct / SECTOR) = Ok buf.
Proof.
  intros k buf start H. apply aligned_exists in H.
  destruct (C21_encrypt_then_decrypt _ _ buf start (length buf / SECTOR) (l_xts P L k)) as (ct & E & D). { lia. }
  destruct (C21_sector_uses_its_own_tweak (xenc P k) buf start (length buf / SECTOR)) as (ct' & E' & HL & _).
  { apply (l_xts P L k). } { lia. }
  rewrite E in E'. injection E' as <-. exists ct. split; [exact E|]. split; [exact HL|]. now rewrite HL.
Qed.

Lemma xts_total : forall k f buf start, f = xenc P k \/ f = xdec P k -> length buf mod SECTOR = 0 ->
  exists ct, xts_process f buf start (length buf / SECTOR) = Ok ct /\ length ct = length buf.
Proof.
  intros k f buf start Hf H. apply aligned_exists in H. destruct (l_xts P L k) as (A & B & C).
  destruct (C21_sector_uses_its_own_tweak f buf start (length buf / SECTOR)) as (ct' & E' & HL & _).
  - destruct Hf as [-> | ->]; auto.
  - lia.
  - eauto.
Qed.

(** A stripe object decodes to the stripe. *)
Lemma finish_of_object : forall cipher comp ssc st data o buflen,
  stripe_object P cipher comp ssc st data = Ok o -> length data <= buflen ->
  finish_stripe_fetch P cipher comp ssc st o (sha P o) buflen =
    Ok (data ++ repeat 0%N (buflen - length data)).
Proof.
  intros cipher comp ssc st data o buflen H Hb. unfold stripe_object in H.
  destruct (compress P comp data) as [c0| |] eqn:Ec; try discriminate. cbn [bindr] in H.
  unfold maybe_encrypt in H. destruct (negb _) eqn:Ea; [discriminate|].
  unfold finish_stripe_fetch. rewrite bytes_eqb_refl. cbn [negb].
  assert (Hd : maybe_decrypt P cipher ssc st o = Ok c0).
  { unfold maybe_decrypt. destruct cipher as [k|]; [|congruence].
    assert (Al : length c0 mod SECTOR = 0) by lia.
    destruct (xts_enc_dec k c0 (N.of_nat st * ssc) Al) as (ct & E1 & E2 & E3).
    rewrite E1 in H. injection H as <-. rewrite E2 in *. 
    apply negb_false_iff in Ea. rewrite Ea. cbn [negb]. exact E3. }
  rewrite Hd. cbn [bindr]. rewrite (decompress_compress _ _ _ Ec). cbn [bindr].
  now replace (buflen <? length data) with false by lia.
Qed.

Lemma stripe_object_total : forall cipher comp ssc st data, length data mod SECTOR = 0 ->
  stripe_object P cipher comp ssc st data <> Panic.
Proof.
  intros cipher comp ssc st data H. unfold stripe_object.
  destruct (compress P comp data) as [c0| |] eqn:Ec; try discriminate.
  - cbn [bindr]. apply compress_aligned in Ec. unfold maybe_encrypt. rewrite Ec. cbn [negb Nat.eqb].
    destruct cipher as [k|]; [|discriminate].
    destruct (xts_total k (xenc P k) c0 (N.of_nat st * ssc)) as (ct & E & _); auto. rewrite E. discriminate.
  - unfold compress in Ec. rewrite H in Ec. cbn in Ec. destruct comp; try discriminate.
    unfold with_size_header in Ec. destruct (_ <=? _)%N; discriminate.
Qed.

Lemma finish_total : forall cipher comp ssc st data h buflen,
  finish_stripe_fetch P cipher comp ssc st data h buflen <> Panic.
Proof.
  intros cipher comp ssc st data h buflen. unfold finish_stripe_fetch.
  destruct (negb (bytes_eqb _ _)); [discriminate|]. unfold maybe_decrypt.
  assert (G : forall d, bindr (decompress P comp d) (fun p => if buflen <? length p then Err E_TOO_BIG
     else Ok (p ++ repeat 0%N (buflen - length p))) <> Panic).
  { intros d. pose proof (decompress_total comp d). destruct (decompress P comp d); try discriminate; [|contradiction].
    cbn [bindr]. destruct (buflen <? length a); discriminate. }
  destruct cipher as [k|]; [|apply G]. destruct (negb _) eqn:E; [discriminate|].
  destruct (xts_total k (xdec P k) data (N.of_nat st * ssc)) as (ct & E' & _); [auto|lia|].
  rewrite E'. apply G.
Qed.

(** ** The stripe mapping *)
Lemma mapping_payload_ok : forall cipher m, exists ct, mapping_payload P cipher m = Ok ct /\
  length ct = length (pad (cbor_map P m)) /\
  (match cipher with None => Ok ct | Some k => xts_process (xdec P k) ct XTS_SECTOR_START (length ct / SECTOR) end)
    = Ok (pad (cbor_map P m)).
Proof.
  intros cipher m. unfold mapping_payload. destruct cipher as [k|]; [|eauto].
  destruct (xts_enc_dec k (pad (cbor_map P m)) XTS_SECTOR_START (pad_aligned _)) as (ct & E1 & E2 & E3).
  exists ct. auto.
Qed.

Lemma xts_loop_bytes : forall f start, (forall t v, bytes_ok v -> bytes_ok (f t v)) ->
  forall n i buf ct, bytes_ok buf -> xts_loop f start n i buf = Ok ct -> bytes_ok ct.
Proof.
  intros f start Hf. induction n as [|n IH]; intros i buf ct Hb E; cbn [xts_loop] in E; [congruence|].
  unfold slice in E. destruct (_ && _); [|discriminate]. cbn [bindr] in E. eapply IH; [|exact E].
  unfold splice. apply bytes_ok_app. split; [now apply bytes_ok_firstn|]. apply bytes_ok_app.
  split; [|now apply bytes_ok_skipn]. apply Hf. now apply bytes_ok_firstn, bytes_ok_skipn.
Qed.

(** The file written for a typed map is typed. *)
Lemma mapping_file_typed : forall m cipher ct key msg, map_typed m -> (N.of_nat (length m) < 2 ^ 56)%N ->
  mapping_payload P cipher m = Ok ct ->
  mapping_typed (mk_mapping MAPPING_DOMAIN MAPPING_VERSION ct (N.of_nat (length (cbor_map P m))) (mac P key msg)).
Proof.
  intros m cipher ct key msg Hm Hl E. pose proof (l_cbor_map_len P L m Hm) as HL. unfold mapping_typed.
  cbn [mf_domain mf_version mf_ciphertext mf_plaintext_len mf_tag].
  assert (Hb : bytes_ok (pad (cbor_map P m))).
  { unfold pad. apply bytes_ok_app. split; [now apply (l_cbor_map_bytes P L)|apply bytes_ok_repeat; reflexivity]. }
  assert (Hc : bytes_ok ct /\ length ct = length (pad (cbor_map P m))).
  { destruct (mapping_payload_ok cipher m) as (ct' & E' & Hl' & _). rewrite E in E'. injection E' as <-. split; [|exact Hl'].
    unfold mapping_payload in E. destruct cipher as [k|]; [|congruence].
    eapply xts_loop_bytes; [|exact Hb|exact E]. apply (l_xts_bytes P L). }
  destruct Hc as [Hc Lc]. rewrite pad_length in Lc. pose proof (pad_len_spec (length (cbor_map P m))).
  split; [reflexivity|]. split; [lia|]. split; [unfold bytes_ok, byte_ok; repeat constructor|]. split; [reflexivity|].
  split; [exact Hc|]. split; [lia|]. apply (l_mac P L).
Qed.

Lemma mapping_roundtrip : forall m key cipher, map_typed m -> (N.of_nat (length m) < 2 ^ 56)%N ->
  exists b, serialize_stripe_mapping P m key cipher = Ok b /\
    deserialize_stripe_mapping P b key cipher = Ok m.
Proof.
  intros m key cipher Hm Hlen. unfold serialize_stripe_mapping.
  destruct (mapping_payload_ok cipher m) as (ct & E & Hl & D). rewrite E. cbn [bindr].
  eexists. split; [reflexivity|]. unfold deserialize_stripe_mapping.
  rewrite (l_cbor_file P L).
  2:{ eapply mapping_file_typed; eauto. }
  cbn [mf_version mf_domain mf_ciphertext mf_plaintext_len mf_tag].
  rewrite N.eqb_refl, bytes_eqb_refl. cbn [negb]. rewrite Hl, pad_aligned. cbn [Nat.eqb negb].
  unfold verify_hmac_tag. rewrite bytes_eqb_refl. cbn [bindr].
  assert (D' : (match cipher with None => Ok ct | Some k => xts_process (xdec P k) ct XTS_SECTOR_START
     (length (pad (cbor_map P m)) / SECTOR) end) = Ok (pad (cbor_map P m))) by (rewrite <- Hl; exact D).
  rewrite D'. cbn [bindr]. rewrite pad_length.
  replace (N.of_nat (length (cbor_map P m) + pad_len (length (cbor_map P m))) <? N.of_nat (length (cbor_map P m)))%N
    with false by lia.
  rewrite Nat2N.id. unfold pad. rewrite firstn_app_exact by reflexivity.
  now rewrite (l_cbor_map P L).
Qed.

Lemma deserialize_total : forall b key cipher, deserialize_stripe_mapping P b key cipher <> Panic.
Proof.
  intros b key cipher. unfold deserialize_stripe_mapping, verify_hmac_tag.
  destruct (cbor_file_dec P b) as [f|]; [|discriminate].
  destruct (negb (_ =? _)%N); [discriminate|]. destruct (negb (bytes_eqb _ _)); [discriminate|].
  destruct (negb (_ =? _)) eqn:E; [discriminate|]. destruct (bytes_eqb _ _); [|discriminate]. cbn [bindr].
  destruct cipher as [k|]; cbn [bindr].
  - destruct (xts_total k (xdec P k) (mf_ciphertext f) XTS_SECTOR_START) as (ct & E' & _); [auto|lia|].
    rewrite E'. cbn [bindr]. destruct (_ <? _)%N; [discriminate|]. destruct (cbor_map_dec P _); discriminate.
  - destruct (_ <? _)%N; [discriminate|]. destruct (cbor_map_dec P _); discriminate.
Qed.
End Codec.

(** ** MAC inputs *)
Lemma app_eq_length : forall {A} (a b c d : list A), length a = length c -> a ++ b = c ++ d -> a = c /\ b = d.
Proof.
  intros A. induction a as [|x a IH]; intros b [|y c] d Hl H; try discriminate; auto.
  cbn in *. injection H as -> H. injection Hl as Hl. destruct (IH b c d Hl H). now subst.
Qed.

Lemma le4_inj : forall x y, (x < 2 ^ 32)%N -> (y < 2 ^ 32)%N -> le_bytes 4 x = le_bytes 4 y -> x = y.
Proof. intros x y Hx Hy. now apply (le_bytes_inj 4). Qed.
Lemma le8_inj : forall x y, (x < 2 ^ 64)%N -> (y < 2 ^ 64)%N -> le_bytes 8 x = le_bytes 8 y -> x = y.
Proof. intros x y Hx Hy. now apply (le_bytes_inj 8). Qed.

Lemma metadata_input_inj : forall m m', ameta_typed m -> ameta_typed m' ->
  metadata_hmac_input m = metadata_hmac_input m' ->
  am_version m = am_version m' /\ am_ssc m = am_ssc m' /\ am_key m = am_key m' /\ am_comp m = am_comp m'.
Proof.
  intros m m' (V & S & C & K & _) (V' & S' & C' & K' & _) H. unfold metadata_hmac_input in H.
  apply app_inv_head in H.
  apply app_eq_length in H; [|now rewrite !le_bytes_length]. destruct H as [Hv H].
  apply app_eq_length in H; [|now rewrite !le_bytes_length]. destruct H as [Hs H].
  apply le4_inj in Hv; auto. apply le8_inj in Hs; auto.
  assert (Hc : forall a a', comp_typed a -> comp_typed a' ->
     (match a with CompNone => [0%N] | CompZstd l => 2%N :: le_bytes 4 l end) =
     (match a' with CompNone => [0%N] | CompZstd l => 2%N :: le_bytes 4 l end) -> a = a').
  { intros [|l] [|l'] T T' E; auto; try discriminate. f_equal. apply le4_inj; auto. congruence. }
  split; [exact Hv|]. split; [exact Hs|].
  destruct (am_key m) as [k|], (am_key m') as [k'|]; try discriminate.
  - cbn [app] in H. unfold len_prefixed in H. apply (f_equal (@tl byte)) in H. unfold tl in H. rewrite <- !app_assoc in H.
    apply app_eq_length in H; [|now rewrite !le_bytes_length]. destruct H as [Hl H].
    apply le8_inj in Hl; [|tauto..]. apply Nat2N.inj in Hl.
    apply app_eq_length in H; auto. destruct H as [-> H]. auto.
  - cbn [app] in H. apply (f_equal (@tl byte)) in H. unfold tl in H. auto.
Qed.

Lemma manifest_input_inj : forall v l p v' l' p', (v < 2 ^ 32)%N -> (v' < 2 ^ 32)%N ->
  (l < 2 ^ 64)%N -> (l' < 2 ^ 64)%N ->
  manifest_hmac_input MAPPING_DOMAIN v l p = manifest_hmac_input MAPPING_DOMAIN v' l' p' ->
  v = v' /\ l = l' /\ p = p'.
Proof.
  intros v l p v' l' p' Hv Hv' Hl Hl' H. unfold manifest_hmac_input in H. apply app_inv_head in H.
  apply app_eq_length in H; [|now rewrite !le_bytes_length]. destruct H as [Ev H].
  apply app_eq_length in H; [|now rewrite !le_bytes_length]. destruct H as [El H].
  apply le4_inj in Ev; auto. apply le8_inj in El; auto.
Qed.

Lemma domains_disjoint : forall m v l p, metadata_hmac_input m <> manifest_hmac_input MAPPING_DOMAIN v l p.
Proof. intros m v l p H. unfold metadata_hmac_input, manifest_hmac_input in H. cbn in H. discriminate. Qed.

(** ** Names *)
Lemma hexdigit_inj : forall a b, (a < 16)%N -> (b < 16)%N -> hexdigit a = hexdigit b -> a = b.
Proof.
  intros a b Ha Hb. unfold hexdigit. destruct (a <? 10)%N eqn:Ea, (b <? 10)%N eqn:Eb; lia.
Qed.

Lemma hex_inj : forall a b, bytes_ok a -> bytes_ok b -> hex a = hex b -> a = b.
Proof.
  induction a as [|x a IH]; intros [|y b] Ha Hb H; auto; try discriminate.
  cbn in H. injection H as H1 H2 H. inversion Ha as [|? ? Hx Ha']; inversion Hb as [|? ? Hy Hb']; subst.
  unfold byte_ok in *. apply hexdigit_inj in H1; [|lia|lia]. apply hexdigit_inj in H2; [|lia|lia].
  f_equal; [lia|]. now apply IH.
Qed.

Lemma object_key_inj : forall a b, bytes_ok a -> bytes_ok b -> object_key a = object_key b -> a = b.
Proof. intros a b Ha Hb H. unfold object_key in H. apply app_inv_head in H. now apply hex_inj. Qed.

Lemma object_key_meta : forall h, object_key h <> META_NAME.
Proof. intros h H. unfold object_key in H. cbn in H. discriminate. Qed.
Lemma object_key_mapping : forall h, object_key h <> MAPPING_NAME.
Proof. intros h H. unfold object_key in H. cbn in H. discriminate. Qed.
Lemma meta_mapping : META_NAME <> MAPPING_NAME.
Proof. discriminate. Qed.

(** ** Content maps *)
Lemma map_get_insert : forall m st x st', StronglySorted lt (map fst m) ->
  map_get (map_insert m st x) st' = if st =? st' then Some x else map_get m st'.
Proof.
  induction m as [|[k v] m IH]; intros st x st' Hs; cbn [map_insert map_get].
  - reflexivity.
  - cbn in Hs. inversion Hs as [|? ? Hs' Hf]; subst.
    destruct (st <? k) eqn:E1; [reflexivity|]. destruct (st =? k) eqn:E2.
    + apply Nat.eqb_eq in E2. subst k. cbn. destruct (st =? st'); reflexivity.
    + cbn [map_get]. rewrite IH by exact Hs'. destruct (k =? st') eqn:E3; [|reflexivity].
      apply Nat.eqb_eq in E3. subst st'. now rewrite E2.
Qed.

Lemma map_insert_keys : forall m st x k, In k (map fst (map_insert m st x)) <-> k = st \/ In k (map fst m).
Proof.
  induction m as [|[k0 v] m IH]; intros st x k; cbn [map_insert map fst].
  - cbn. intuition.
  - destruct (st <? k0) eqn:E1; [cbn; intuition|]. destruct (st =? k0) eqn:E2.
    + apply Nat.eqb_eq in E2. subst k0. cbn. intuition.
    + cbn [map fst In]. rewrite IH. intuition.
Qed.

Lemma map_insert_sorted : forall m st x, StronglySorted lt (map fst m) -> StronglySorted lt (map fst (map_insert m st x)).
Proof.
  induction m as [|[k v] m IH]; intros st x Hs; cbn [map_insert].
  - cbn. repeat constructor.
  - cbn in Hs. inversion Hs as [|? ? Hs' Hf]; subst.
    destruct (st <? k) eqn:E1.
    + cbn. constructor; [exact Hs|]. constructor; [lia|]. eapply Forall_impl; [|exact Hf]. cbn. intros; lia.
    + destruct (st =? k) eqn:E2.
      * apply Nat.eqb_eq in E2. subst k. cbn. constructor; auto.
      * cbn [map fst]. constructor; [now apply IH|]. rewrite Forall_forall in *. intros y Hy.
        apply map_insert_keys in Hy. destruct Hy as [->|Hy]; [lia|auto].
Qed.

Lemma map_insert_Forall : forall (Q : nat * spec -> Prop) m st x, Forall Q m -> Q (st, x) -> Forall Q (map_insert m st x).
Proof.
  intros Q. induction m as [|[k v] m IH]; intros st x F H; cbn [map_insert].
  - auto.
  - inversion F; subst. destruct (st <? k); [auto|]. destruct (st =? k); auto.
Qed.

Lemma map_get_In : forall m st x, map_get m st = Some x -> In (st, x) m.
Proof.
  induction m as [|[k v] m IH]; intros st x H; [discriminate|]. cbn in H.
  destruct (k =? st) eqn:E; [apply Nat.eqb_eq in E; left; congruence|right; auto].
Qed.
