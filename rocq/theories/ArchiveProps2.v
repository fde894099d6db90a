(** Properties C24 (tampering), C21 (archives), C46 (termination). *)
From Coq Require Import List Arith NArith ZArith Bool Lia Sorted Permutation ZifyBool ZifyNat ZifyN.
Import ListNotations.
From Verif Require Import Base BaseFacts ListFacts MetadataModel CryptModel CryptSpec CryptProofs KeyModel CryptProps
  ArchiveModel ArchiverModel ArchiveSpec ArchiveProofs ArchiverProofs ArchiverProofs2 ArchiveProps ArchiveToy.

Lemma bytes_dec : forall a b : list N, {a = b} + {a <> b}.
Proof. apply list_eq_dec. apply N.eq_dec. Qed.
Lemma put_dec : forall a b : put_op, {a = b} + {a <> b}.
Proof. intros [a1 a2] [b1 b2]. destruct (bytes_dec a1 b1), (bytes_dec a2 b2); subst; auto; right; congruence. Qed.

Lemma named_dec : forall (l : list put_op) n, {d | In (mk_put n d) l} + {forall d, ~ In (mk_put n d) l}.
Proof.
  intros l n. induction l as [|[n' d'] l [[d H]|H]]; [right; auto|left; exists d; now right|].
  destruct (bytes_dec n' n) as [->|Hn]; [left; exists d'; now left|].
  right. intros d [E|E]; [congruence|now apply (H d)].
Qed.

(** ** C24 *)
(** For every store contents whatsoever (produced by an adversary from anything
    the archiver published): if it opens under the key-encryption key, then
    exactly the archived stripes are present and every stripe it returns is the
    archived one -- unless the store contains a forged tag, a forged wrapped key
    or a SHA-256 collision. *)
Theorem C24_tampering_detected : forall P c, lawful P -> aconf_ok c ->
  forall s, archiving P c s ->
  forall st src, open_archive P st (ac_kek c) = Ok src ->
  mac_forged P c s st \/ wrap_forged P c s st \/
  (s_ssc src = ac_ssc c /\ forall i,
    (has_stripe src i = true <-> has_data c i) /\
    (forall data, fetch_stripe P st src i (stripe_size c) = Ok data ->
       (has_data c i /\ data = contents c i) \/
       (~ has_data c i /\ data = repeat 0%N (stripe_size c)) \/
       collision_found P c st)).
Proof.
  intros P c L K s A st src H. destruct (archiving_inv P c s A) as [I _].
  destruct (metadata_facts P c L K) as (m0 & Em0 & Ty & V & S & C & HK & VM & EHK & CI).
  unfold open_archive in H. unfold fetch_metadata in H.
  destruct (st META_NAME) as [b|] eqn:Eb; [|discriminate].
  destruct (json_dec P b) as [m|] eqn:Ej; [|discriminate].
  destruct (am_version m =? ARCHIVE_FORMAT_VERSION)%N eqn:Ev; [|discriminate]. cbn [bindr] in H.
  destruct (decrypt_hmac_key P m (ac_kek c)) as [hk| |] eqn:Ehk; try discriminate. cbn [bindr] in H.
  unfold decrypt_hmac_key in Ehk.
  destruct (decrypt_key_data (open_ P) (ac_kek c) (am_hmac_key m)) as [k0| |] eqn:Edk; try discriminate. cbn [bindr] in Ehk.
  destruct (length k0 =? 32) eqn:El; [|discriminate]. injection Ehk as ->.
  destruct (named_dec (a_started s) META_NAME) as [[d0 Hd0]|Hno].
  2:{ right; left. exists b, m, hk. repeat (split; [assumption|]). intros d0 m1 Hin. now apply Hno in Hin. }
  assert (Hall : forall d1, In (mk_put META_NAME d1) (a_started s) -> json_dec P d1 = Some m0).
  { intros d1 Hin. apply (started_meta P c s d1 I) in Hin. destruct Hin as (m1 & Em1 & ->). rewrite Em0 in Em1.
    injection Em1 as <-. now apply (l_json P L). }
  destruct (bytes_dec (am_hmac_key m) (am_hmac_key m0)) as [Ek|Nk].
  2:{ assert (Nk2 : am_key m0 <> Some (am_hmac_key m)).
      { intros E. rewrite E in CI. unfold from_encrypted_key in CI. rewrite Edk in CI. cbn [bindr] in CI.
        unfold from_combined_key in CI. apply Nat.eqb_eq in El. rewrite El in CI. cbn in CI. discriminate. }
      right; left. exists b, m, hk. repeat (split; [assumption|]). intros d1 m1 Hin Hj.
      rewrite (Hall d1 Hin) in Hj. injection Hj as <-. auto. }
  assert (hk = ac_hmac_key c).
  { unfold decrypt_hmac_key in HK. rewrite <- Ek, Edk in HK. cbn [bindr] in HK. rewrite El in HK. congruence. }
  subst hk. unfold verify_metadata_hmac_tag, verify_hmac_tag in H.
  destruct (negb (length (am_hmac m) =? 32)); [discriminate|].
  destruct (bytes_eqb (am_hmac m) (mac P (ac_hmac_key c) (metadata_hmac_input m))) eqn:Et; [|discriminate]. cbn [bindr] in H.
  apply bytes_eqb_spec in Et.
  assert (Auth : forall msg, (exists p tag', In p (a_started s) /\ presented P (po_name p) (po_data p) msg tag') ->
     msg = metadata_hmac_input m0 \/
     exists ct, mapping_payload P (ac_cipher c) (a_map s) = Ok ct /\
       msg = manifest_hmac_input MAPPING_DOMAIN MAPPING_VERSION (N.of_nat (length (cbor_map P (a_map s)))) ct /\
       exists d, In (mk_put MAPPING_NAME d) (a_started s)).
  { intros msg ([n d] & tag' & Hin & Hp). cbn [po_name po_data] in Hp.
    destruct Hp as [(-> & m1 & Hj & -> & _)|(-> & f & Hf & _ & ->)].
    - left. rewrite (Hall d Hin) in Hj. congruence.
    - right. pose proof Hin as Hin'. apply (started_mapping P c s d I) in Hin. unfold serialize_stripe_mapping in Hin.
      destruct (mapping_payload P (ac_cipher c) (a_map s)) as [ct| |] eqn:Ep; try discriminate. cbn [bindr] in Hin.
      apply Ok_inj in Hin. subst d. exists ct. split; [reflexivity|].
      destruct (map_typed_inv P c L K s I) as [MT ML]. pose proof (l_cbor_map_len P L (a_map s) MT) as CL.
      rewrite (l_cbor_file P L) in Hf by (eapply mapping_file_typed; eauto).
      injection Hf as <-. cbn. split; [reflexivity|eauto]. }
  destruct (bytes_dec (metadata_hmac_input m) (metadata_hmac_input m0)) as [Em|Nm].
  2:{ left. exists META_NAME, b, (metadata_hmac_input m), (am_hmac m). split; [exact Eb|].
      split. { left. split; [reflexivity|]. exists m. auto. } split; [exact Et|].
      intros Hp. apply Auth in Hp. destruct Hp as [E|(ct & _ & E & _)]; [contradiction|]. now apply domains_disjoint in E. }
  apply metadata_input_inj in Em; [|eapply (l_json_typed P L); eauto|exact Ty]. destruct Em as (_ & Es & Eky & Ec).
  rewrite Eky, CI in H. cbn [bindr] in H.
  destruct (st MAPPING_NAME) as [bm|] eqn:Ebm; [|discriminate].
  destruct (deserialize_stripe_mapping P bm (ac_hmac_key c) (ac_cipher c)) as [hashes| |] eqn:Ed; try discriminate.
  cbn [bindr] in H. injection H as <-. pose proof Ed as Ed0. unfold deserialize_stripe_mapping in Ed.
  destruct (cbor_file_dec P bm) as [f|] eqn:Ef; [|discriminate].
  destruct (mf_version f =? MAPPING_VERSION)%N eqn:E1; [|discriminate].
  destruct (bytes_eqb (mf_domain f) MAPPING_DOMAIN) eqn:E2; [|discriminate].
  destruct (length (mf_ciphertext f) mod SECTOR =? 0) eqn:E3; [|discriminate]. cbn [negb] in Ed.
  unfold verify_hmac_tag in Ed. destruct (bytes_eqb (mf_tag f) _) eqn:E4; [|discriminate].
  apply bytes_eqb_spec in E2. apply bytes_eqb_spec in E4. apply N.eqb_eq in E1.
  set (msg := manifest_hmac_input (mf_domain f) (mf_version f) (mf_plaintext_len f) (mf_ciphertext f)) in *.
  assert (Pr : presented P MAPPING_NAME bm msg (mf_tag f)).
  { right. split; [reflexivity|]. exists f. auto. }
  destruct (named_dec (a_started s) MAPPING_NAME) as [[d1 Hd1]|Hno].
  2:{ left. exists MAPPING_NAME, bm, msg, (mf_tag f). repeat (split; [assumption|]). intros Hp. apply Auth in Hp.
      destruct Hp as [E|(ct & _ & _ & d & Hd)]; [|now apply Hno in Hd]. symmetry in E. unfold msg in E. rewrite E2 in E.
      now apply domains_disjoint in E. }
  destruct (mapping_payload_ok P L (ac_cipher c) (a_map s)) as (ct & Ect & Hlen & Hdec).
  set (msg0 := manifest_hmac_input MAPPING_DOMAIN MAPPING_VERSION (N.of_nat (length (cbor_map P (a_map s)))) ct) in *.
  destruct (bytes_dec msg msg0) as [Emsg|Nmsg].
  2:{ left. exists MAPPING_NAME, bm, msg, (mf_tag f). repeat (split; [assumption|]). intros Hp. apply Auth in Hp.
      destruct Hp as [E|(ct' & Ect' & E & _)].
      - symmetry in E. unfold msg in E. rewrite E2 in E. now apply domains_disjoint in E.
      - rewrite Ect in Ect'. injection Ect' as <-. contradiction. }
  right; right.
  assert (Hhash : hashes = a_map s).
  { unfold msg, msg0 in Emsg. rewrite E1, E2 in Emsg.
    destruct (l_cbor_file_typed P L bm f Ef) as (_ & Fl & _).
    destruct (map_typed_inv P c L K s I) as [MT ML]. pose proof (l_cbor_map_len P L (a_map s) MT) as CL.
    apply manifest_input_inj in Emsg; [|reflexivity|reflexivity|exact Fl|lia]. destruct Emsg as (_ & Ep & Ec').
    destruct (mapping_roundtrip P L (a_map s) (ac_hmac_key c) (ac_cipher c) MT ML) as (b' & Eb1 & Eb2).
    unfold serialize_stripe_mapping in Eb1. rewrite Ect in Eb1. cbn [bindr] in Eb1. apply Ok_inj in Eb1. subst b'.
    unfold deserialize_stripe_mapping in Eb2.
    rewrite (l_cbor_file P L) in Eb2 by (eapply mapping_file_typed; eauto).
    cbn [mf_version mf_domain mf_ciphertext mf_plaintext_len mf_tag] in Eb2.
    rewrite N.eqb_refl, bytes_eqb_refl in Eb2. cbn [negb] in Eb2. unfold verify_hmac_tag in Eb2. rewrite bytes_eqb_refl in Eb2.
    rewrite <- Ec', <- Ep in Eb2. rewrite E3 in Eb2. cbn [negb bindr] in Eb2, Ed. rewrite Ed in Eb2. congruence. }
  subst hashes. destruct (mapping_started_frozen P c s d1 I Hd1) as [F _].
  pose proof (keys_has_data P c s I F) as HKD.
  split; [cbn; congruence|]. intros i. split.
  { unfold has_stripe. cbn [s_map]. rewrite <- HKD. destruct (map_get (a_map s) i) as [x|].
    - split; eauto.
    - split; [discriminate|intros [x Hx]; discriminate]. }
  intros data Hf. unfold fetch_stripe in Hf. cbn [s_map s_cipher s_ssc s_comp] in Hf.
  destruct (map_get (a_map s) i) as [x|] eqn:Ex.
  2:{ injection Hf as <-. right; left. split; [|reflexivity]. intros Hd. apply HKD in Hd. destruct Hd as [x Hx]. congruence. }
  assert (Hd : has_data c i) by (apply HKD; eauto).
  assert (HL : length (contents c i) = stripe_size c) by (apply contents_length; [exact K|apply Hd]).
  pose proof (map_get_In _ _ _ Ex) as Hin. pose proof (i_map _ _ _ I) as FM. rewrite Forall_forall in FM.
  apply FM in Hin. destruct Hin as [_ Hin]. cbn [fst snd] in Hin. destruct x as [|h].
  - injection Hf as <-. left. split; [exact Hd|]. apply is_zero_spec, all_zero_repeat in Hin. now rewrite HL in Hin.
  - destruct Hin as [Hz (o & Ho & -> & Hs)]. unfold object_of in Ho.
    destruct (st (object_key (sha P o))) as [d|] eqn:Eo; [|discriminate].
    destruct (bytes_dec d o) as [->|Nd].
    + left. split; [exact Hd|]. rewrite Es, S, Ec, C in Hf.
      rewrite (finish_of_object P L _ _ _ _ (contents c i) o (stripe_size c)) in Hf by (auto; lia).
      rewrite HL, Nat.sub_diag, app_nil_r in Hf. congruence.
    + right; right. exists i, o, d. split; [exact Hd|]. split; [exact Ho|]. split; [exact Eo|]. split; [|exact Nd].
      unfold finish_stripe_fetch in Hf. destruct (bytes_eqb (sha P d) (sha P o)) eqn:E; [|discriminate].
      now apply bytes_eqb_spec in E.
Qed.

(** Without a key-encryption key nothing stops an adversary: whatever disk [c']
    they archive (with an HMAC key of their own) opens as if it were the
    victim's. *)
Theorem C24_refuted_without_kek : forall P c c', lawful P -> k_method (ac_kek c) = MNone ->
  aconf_ok c' -> no_collision P c' -> k_method (ac_kek c') = MNone ->
  forall s', archiving P c' s' -> a_phase s' = PDone ->
  exists src, open_archive P (a_store s') (ac_kek c) = Ok src /\ faithful P c' (a_store s') src.
Proof.
  intros P c c' L M K' NC' M' s' A' D. destruct (C23_archive_roundtrip P c' L K' NC' s' A' D) as (src & Ho & Hf).
  exists src. split; [|exact Hf]. rewrite <- Ho.
  unfold open_archive, decrypt_hmac_key, from_encrypted_key, decrypt_key_data. rewrite M, M'. reflexivity.
Qed.

(** ** C21 for archives.  The sector numbers whose tweaks are used for an object
    of stripe [st] with [n] sectors are [st * ssc .. st * ssc + n - 1]
    (C21_sector_uses_its_own_tweak); those used for the mapping start at 2^60. *)
Theorem C21_uncompressed_archive_tweaks_disjoint : forall P cipher ssc st st' data data' o o' i i',
  length data = N.to_nat ssc * 512 -> length data' = N.to_nat ssc * 512 ->
  stripe_object P (Some cipher) CompNone ssc st data = Ok o ->
  stripe_object P (Some cipher) CompNone ssc st' data' = Ok o' ->
  lawful P ->
  i < length o / 512 -> i' < length o' / 512 ->
  ((N.of_nat st + 1) * ssc <= 2 ^ 60)%N -> ((N.of_nat st' + 1) * ssc <= 2 ^ 60)%N ->
  (tweak (N.of_nat st * ssc + N.of_nat i) = tweak (N.of_nat st' * ssc + N.of_nat i') -> st = st' /\ i = i') /\
  (forall j, (j < 2 ^ 60)%N -> tweak (N.of_nat st * ssc + N.of_nat i) <> tweak (XTS_SECTOR_START + j)).
Proof.
  intros P cipher ssc st st' data data' o o' i i' Hl Hl' Ho Ho' L Hi Hi' B B'.
  assert (HO : forall st d o, length d = N.to_nat ssc * 512 -> stripe_object P (Some cipher) CompNone ssc st d = Ok o -> length o / 512 = N.to_nat ssc).
  { clear - L. intros st d o Hl Ho. unfold stripe_object, compress, maybe_encrypt in Ho.
    assert (Al : length d mod SECTOR = 0). { unfold SECTOR. rewrite Hl. apply Nat.mod_mul. lia. }
    rewrite Al in Ho. cbn [Nat.eqb negb bindr] in Ho. rewrite Al in Ho. cbn [Nat.eqb negb] in Ho.
    destruct (xts_total P L cipher (xenc P cipher) d (N.of_nat st * ssc) (or_introl eq_refl) Al) as (ct & E & HL).
    rewrite E in Ho. injection Ho as <-. rewrite HL, Hl. apply Nat.div_mul. lia. }
  rewrite (HO _ _ _ Hl Ho) in Hi. rewrite (HO _ _ _ Hl' Ho') in Hi'.
  assert (X : (N.of_nat st * ssc + N.of_nat i < 2 ^ 60)%N) by nia.
  assert (X' : (N.of_nat st' * ssc + N.of_nat i' < 2 ^ 60)%N) by nia.
  split.
  - intros E. apply C21_tweaks_distinct in E; [|lia|lia].
    assert (st = st') by nia. subst st'. split; [reflexivity|]. lia.
  - intros j Hj E. apply C21_tweaks_distinct in E; unfold XTS_SECTOR_START in *; lia.
Qed.

(** ** Compression breaks it: by the pigeonhole principle every lossless codec
    leaves some stripe uncompressed, its object (a 4-byte header more) then needs
    one sector more than the stripe, and the extra sector is encrypted with the
    first tweak of the next stripe. *)
Fixpoint strings (n : nat) : list (list N) :=
  match n with
  | O => [[]]
  | S k => flat_map (fun b => map (cons b) (strings k)) (map N.of_nat (seq 0 256))
  end.

Lemma strings_In : forall n l, In l (strings n) <-> length l = n /\ bytes_ok l.
Proof.
  induction n as [|n IH]; intros l; cbn [strings].
  - split.
    + intros [<-|[]]. split; [reflexivity|constructor].
    + intros [H _]. destruct l; [now left|discriminate].
  - rewrite in_flat_map. split.
    + intros (b & Hb & Hl). apply in_map_iff in Hl. destruct Hl as (r & <- & Hr). apply IH in Hr. destruct Hr as [Hl Hok].
      split; [cbn; congruence|]. constructor; [|exact Hok]. apply in_map_iff in Hb. destruct Hb as (k & <- & Hk).
      apply in_seq in Hk. unfold byte_ok. lia.
    + intros [Hl Hok]. destruct l as [|b r]; [discriminate|]. inversion Hok as [|? ? Hb Hr]; subst. exists b. split.
      * apply in_map_iff. exists (N.to_nat b). split; [lia|]. apply in_seq. unfold byte_ok in Hb. lia.
      * apply in_map. apply IH. split; [cbn in Hl; lia|exact Hr].
Qed.

Lemma NoDup_app_disj : forall {A} (a b : list A), NoDup a -> NoDup b -> (forall x, In x a -> ~ In x b) -> NoDup (a ++ b).
Proof.
  intros A. induction a as [|x a IH]; intros b Ha Hb Hd; [exact Hb|]. cbn. inversion Ha; subst. constructor.
  - rewrite in_app_iff. intros [H|H]; [contradiction|]. apply (Hd x); [now left|exact H].
  - apply IH; auto. intros y Hy. apply Hd. now right.
Qed.

Lemma strings_NoDup : forall n, NoDup (strings n).
Proof.
  induction n as [|n IH]; cbn [strings]; [constructor; [auto|constructor]|].
  assert (G : forall ks, NoDup ks -> NoDup (flat_map (fun b => map (cons b) (strings n)) ks)).
  { induction ks as [|k ks IHk]; intros ND; [constructor|]. cbn. inversion ND; subst. apply NoDup_app_disj; auto.
    - apply FinFun.Injective_map_NoDup; [|exact IH]. intros x y E. congruence.
    - intros x Hx Hin. apply in_map_iff in Hx. destruct Hx as (r & <- & _). apply in_flat_map in Hin.
      destruct Hin as (k' & Hk' & Hin). apply in_map_iff in Hin. destruct Hin as (r' & E & _). congruence. }
  apply G. apply FinFun.Injective_map_NoDup; [|apply seq_NoDup]. intros x y E. lia.
Qed.

Lemma strings_length : forall n, length (strings (S n)) = 256 * length (strings n).
Proof.
  intros n. change (length (strings (S n))) with (length (flat_map (fun b => map (cons b) (strings n)) (map N.of_nat (seq 0 256)))).
  assert (G : forall ks : list N, length (flat_map (fun b => map (cons b) (strings n)) ks) = length ks * length (strings n)).
  { induction ks as [|k ks IH]; [reflexivity|]. cbn [flat_map]. rewrite app_length, map_length, IH. reflexivity. }
  rewrite G, map_length, seq_length. reflexivity.
Qed.

Fixpoint shorter (n : nat) : list (list N) :=
  match n with O => [] | S k => strings k ++ shorter k end.
Lemma shorter_In : forall n l, length l < n -> bytes_ok l -> In l (shorter n).
Proof.
  induction n as [|n IH]; intros l Hl Hok; [lia|]. cbn [shorter]. rewrite in_app_iff.
  destruct (Nat.eq_dec (length l) n); [left; now apply strings_In|right; apply IH; auto; lia].
Qed.
Lemma shorter_length : forall n, length (shorter n) < length (strings n).
Proof.
  induction n as [|n IH]; [cbn; lia|]. rewrite strings_length. cbn [shorter]. rewrite app_length. lia.
Qed.

Lemma incompressible : forall (enc : list N -> list N) (dec : list N -> option (list N)),
  (forall d, dec (enc d) = Some d) -> (forall d, bytes_ok d -> bytes_ok (enc d)) ->
  forall n, exists d, length d = n /\ bytes_ok d /\ n <= length (enc d).
Proof.
  intros enc dec Hinv Hok n.
  destruct (existsb (fun d => n <=? length (enc d)) (strings n)) eqn:E.
  - apply existsb_exists in E. destruct E as (d & Hin & Hle). apply strings_In in Hin. exists d.
    split; [apply Hin|]. split; [apply Hin|]. now apply Nat.leb_le.
  - exfalso. assert (Hlt : forall d, In d (strings n) -> length (enc d) < n).
    { intros d Hin. destruct (n <=? length (enc d)) eqn:El; [|lia].
      assert (X : existsb (fun d => n <=? length (enc d)) (strings n) = true) by (apply existsb_exists; eauto). congruence. }
    assert (ND : NoDup (map enc (strings n))).
    { apply FinFun.Injective_map_NoDup; [|apply strings_NoDup]. intros x y Exy. apply (f_equal dec) in Exy.
      rewrite !Hinv in Exy. congruence. }
    assert (Incl : incl (map enc (strings n)) (shorter n)).
    { intros x Hx. apply in_map_iff in Hx. destruct Hx as (d & <- & Hd). pose proof (Hlt d Hd). apply strings_In in Hd.
      apply shorter_In; auto. apply Hok. apply Hd. }
    pose proof (NoDup_incl_length ND Incl) as Hl. rewrite map_length in Hl. pose proof (shorter_length n). lia.
Qed.

(** For every lossless codec, stripe size and stripe there is a stripe contents
    whose object, if it can be stored at all, has a sector encrypted with the
    same tweak as the first sector of any object of the next stripe. *)
Theorem C21_refuted_compressed_archive : forall P cipher level ssc st,
  lawful P -> (forall d, bytes_ok d -> bytes_ok (zenc P level d)) ->
  exists data, length data = N.to_nat ssc * 512 /\ bytes_ok data /\
    forall o, stripe_object P (Some cipher) (CompZstd level) ssc st data = Ok o ->
      exists i, i < length o / 512 /\
        tweak (N.of_nat st * ssc + N.of_nat i) = tweak (N.of_nat (S st) * ssc + N.of_nat 0).
Proof.
  intros P cipher level ssc st L Hb.
  destruct (incompressible (zenc P level) (zdec P) (l_zstd P L level) Hb (N.to_nat ssc * 512)) as (d & Hl & Hok & Hle).
  exists d. split; [exact Hl|]. split; [exact Hok|]. intros o Ho. exists (N.to_nat ssc). split.
  - unfold stripe_object in Ho. destruct (compress P (CompZstd level) d) as [c0| |] eqn:Ec; try discriminate. cbn [bindr] in Ho.
    pose proof (compress_aligned P _ _ _ Ec) as Al. unfold maybe_encrypt in Ho. rewrite Al in Ho. cbn [Nat.eqb negb] in Ho.
    destruct (xts_total P L cipher (xenc P cipher) c0 (N.of_nat st * ssc) (or_introl eq_refl) Al) as (ct & E & HL).
    rewrite E in Ho. injection Ho as <-. rewrite HL. unfold compress in Ec. destruct (negb _); [discriminate|].
    unfold with_size_header in Ec. destruct (2 ^ 32 <=? _)%N; [discriminate|]. apply Ok_inj in Ec. subst c0.
    rewrite pad_length, app_length, le_bytes_length in *. unfold SECTOR in Al.
    set (x := 4 + length (zenc P level d) + pad_len (4 + length (zenc P level d))) in *.
    assert (N.to_nat ssc * 512 < x) by (unfold x; lia). clearbody x.
    apply Nat.div_exact in Al; [|lia]. nia.
  - f_equal. lia.
Qed.

(** ** C46: archiving terminates.  In every reachable state that is neither
    finished nor failed, the archiver is not stuck: either everything outside has
    completed and it makes a step, or some outside operation is pending whose
    completion is a step; and at most [4 * stripes + 6] steps other than retries
    happen in any run. *)
Definition alive (s : astate) : Prop := match a_phase s with PLoop | PMeta | PMapping => True | _ => False end.

Definition bufs_weight (l : list (nat * (nat * bool))) : nat :=
  fold_right (fun (e : nat * (nat * bool)) a => (if snd (snd e) then 2 else 3) + a) 0 l.
Definition weight (c : aconf) (s : astate) : nat :=
  match a_phase s with
  | PLoop => 4 * (ac_count c - a_next s) + bufs_weight (a_bufs s) + length (a_puts s) + 6
  | PMeta => 4
  | PMapping => 2
  | _ => 0
  end.


Lemma bufs_weight_perm : forall a b, Permutation a b -> bufs_weight a = bufs_weight b.
Proof.
  intros a b H. induction H; cbn [bufs_weight fold_right] in *; try lia;
  repeat match goal with |- context [snd (snd ?e)] => destruct (snd (snd e)) end; unfold bufs_weight in *; lia.
Qed.

Lemma bufs_weight_app : forall a b, bufs_weight (a ++ b) = bufs_weight a + bufs_weight b.
Proof. intros a b. unfold bufs_weight. induction a as [|e a IH]; [reflexivity|]. cbn [app fold_right]. destruct (snd (snd e)); lia. Qed.

Lemma bufs_weight_one : forall st b f, bufs_weight [(st, (b, f))] = if f : bool then 2 else 3.
Proof. intros st b [|]; reflexivity. Qed.
Lemma bufs_weight_cons : forall st x l, bufs_weight ((st, x) :: l) = (if snd x : bool then 2 else 3) + bufs_weight l.
Proof. reflexivity. Qed.
Arguments bufs_weight : simpl never.

Lemma serialize_ok : forall P cipher, lawful P -> forall m key, exists b, serialize_stripe_mapping P m key cipher = Ok b.
Proof.
  intros P cipher L m key. unfold serialize_stripe_mapping. destruct (mapping_payload_ok P L cipher m) as (ct & E & _).
  rewrite E. cbn. eauto.
Qed.

Lemma weight_pos : forall c s, alive s -> 0 < weight c s.
Proof. intros c s H. unfold alive, weight in *. destruct (a_phase s); try contradiction; lia. Qed.

(** Every step either leaves the weight alone or lowers it, and it lowers it
    unless it is [AStored], or [AStart] finding no free buffer. *)
Theorem C46_steps_bounded : forall P c, lawful P -> aconf_ok c -> forall s, archiving P c s ->
  forall e s', astep P c s e = Some s' ->
  weight c s' <= weight c s /\
  (alive s -> (forall i, e <> AStored i) -> ~ (e = AStart /\ s' = s) -> weight c s' < weight c s).
Proof.
  intros P c L K s A e s' H. destruct (archiving_inv P c s A) as [I O].
  assert (D : forall p s, (p = PFailed \/ p = PPanicked) -> weight c (with_phase p s) = 0) by (intros p ? [->| ->]; reflexivity).
  assert (R : forall st x, find_buf (a_bufs s) st = Some x ->
     bufs_weight (a_bufs s) = (if snd x then 2 else 3) + bufs_weight (remove_buf (a_bufs s) st)).
  { intros st x Hx. apply remove_buf_perm in Hx. apply bufs_weight_perm in Hx. exact Hx. }
  destruct e as [|st|st ok|i|i ok| |]; cbn [astep] in H.
  - destruct (a_phase s) eqn:Ep; try discriminate. destruct (a_next s <? ac_count c) eqn:En; try discriminate.
    destruct (header c (a_next s)); try (injection H as <-; rewrite (D _ s) by auto; pose proof (weight_pos c s ltac:(unfold alive; rewrite Ep; exact Logic.I)); split; lia).
    destruct (should_be_archived _).
    + destruct (a_free s) eqn:Ef; injection H as <-; [split; [lia|intros _ _ X; exfalso; auto]|].
      unfold weight. cbn. rewrite Ep, bufs_weight_app, bufs_weight_one. split; lia.
    + injection H as <-. unfold weight. cbn. rewrite Ep. split; lia.
  - destruct (a_phase s) eqn:Ep; try discriminate. destruct (find_buf (a_bufs s) st) as [[b [|]]|] eqn:Ef; try discriminate.
    destruct (header c st); try discriminate. injection H as <-. apply R in Ef. unfold weight. cbn. rewrite Ep, bufs_weight_app, bufs_weight_one.
    cbn in *. split; lia.
  - destruct (a_phase s) eqn:Ep; try discriminate. destruct (find_buf (a_bufs s) st) as [[b f]|] eqn:Ef; try discriminate.
    apply R in Ef. destruct ok; [|injection H as <-; rewrite (D _ s) by auto; pose proof (weight_pos c s ltac:(unfold alive; rewrite Ep; exact Logic.I)); split; lia].
    destruct f; [|discriminate]. injection H as <-. cbn in Ef.
    unfold start_upload, weight. rewrite Ep. destruct (is_zero_stripe _); [cbn; split; lia|].
    destruct (stripe_object _ _ _ _ _ _); try (cbn; split; lia).
    destruct (seen_key _ _); cbn; rewrite ?app_length; cbn; split; lia.
  - destruct (nth_error (a_puts s) i); [|discriminate]. injection H as <-. unfold weight. cbn. split; [lia|].
    intros _ X. exfalso. now apply (X i).
  - destruct (nth_error (a_puts s) i) as [p|] eqn:En; [|discriminate]. destruct (a_phase s) eqn:Ep; try discriminate.
    + destruct ok.
      * pose proof (i_inflight _ _ _ I Ep) as Ei.
        destruct (a_inflight s); [destruct (a_puts s); [destruct i; discriminate|discriminate]|]. injection H as <-.
        apply remove_nth_length in En. unfold weight. cbn. rewrite Ep. split; lia.
      * injection H as <-. rewrite D by auto. pose proof (weight_pos c s ltac:(unfold alive; rewrite Ep; exact Logic.I)). split; lia.
    + unfold only_put in O. rewrite Ep in O. destruct O as (q & Eq & Nq). rewrite Eq in En.
      apply remove_single in En. destruct En as [-> _]. rewrite Nq, bytes_eqb_refl in H. pose proof (weight_pos c s ltac:(unfold alive; rewrite Ep; exact Logic.I)).
      destruct ok; [|injection H as <-; rewrite D by auto; split; lia].
      destruct (serialize_stripe_mapping _ _ _ _); injection H as <-; try (rewrite D by auto; split; lia).
      unfold weight. cbn. rewrite Ep. split; lia.
    + unfold only_put in O. rewrite Ep in O. destruct O as (q & Eq & Nq). rewrite Eq in En.
      apply remove_single in En. destruct En as [-> _]. rewrite Nq, bytes_eqb_refl in H. injection H as <-.
      unfold weight. cbn. rewrite Ep. destruct ok; cbn; split; lia.
  - destruct (a_phase s) eqn:Ep; try discriminate; injection H as <-; rewrite (D _ s) by auto;
      (pose proof (weight_pos c s ltac:(unfold alive; rewrite Ep; exact Logic.I)); split; lia).
  - destruct (a_phase s) eqn:Ep; try discriminate. destruct (_ && _); [|discriminate]. pose proof (weight_pos c s ltac:(unfold alive; rewrite Ep; exact Logic.I)).
    destruct (serialize_stripe_mapping _ _ _ _); [|injection H as <-; rewrite D by auto; split; lia..].
    destruct (archive_metadata_of _ _); injection H as <-; [|rewrite D by auto; split; lia..].
    unfold weight. cbn. rewrite Ep. split; lia.
Qed.

(** The number of steps of a run that do something: all but a stored object
    becoming visible (again) and the loop finding no free buffer. *)
Fixpoint busy_steps (P : prims) (c : aconf) (s : astate) (es : list aevent) : nat :=
  match es with
  | [] => 0
  | e :: r =>
    match astep P c s e with
    | None => 0
    | Some s1 =>
      (match e, a_free s with AStored _, _ => 0
       | AStart, [] => match header c (a_next s) with Ok h => if should_be_archived h then 0 else 1 | _ => 1 end
       | _, _ => 1 end) + busy_steps P c s1 r
    end
  end.

Lemma dead_steps : forall P c s e s', ~ alive s -> astep P c s e = Some s' -> exists i, e = AStored i.
Proof.
  intros P c s e s' Hd H. unfold alive in Hd. destruct e as [|st|st ok|i|i ok| |]; cbn [astep] in H; [..|eauto| | |];
    try (destruct (a_phase s); [exfalso; auto|exfalso; auto|exfalso; auto|discriminate..]).
  destruct (nth_error (a_puts s) i); [|discriminate]. destruct (a_phase s); try discriminate; exfalso; auto.
Qed.

Theorem C46_work_bounded : forall P c, lawful P -> aconf_ok c -> forall es s,
  arun P c (anew c) es = Some s -> busy_steps P c (anew c) es <= 4 * ac_count c + 6.
Proof.
  intros P c L K.
  assert (G : forall es s0 s, archiving P c s0 -> arun P c s0 es = Some s -> busy_steps P c s0 es <= weight c s0).
  { induction es as [|e es IH]; intros s0 s A H; [cbn; lia|]. cbn [arun busy_steps] in *.
    destruct (astep P c s0 e) as [s1|] eqn:E; [|discriminate].
    assert (A1 : archiving P c s1).
    { destruct A as [es0 H0]. exists (es0 ++ [e]).
      assert (Ap : forall es a s0 s3, arun P c s0 es = Some s3 -> arun P c s0 (es ++ a) = arun P c s3 a).
      { clear. induction es as [|x es IH]; intros a s0 s3 H; cbn in *; [congruence|].
        destruct (astep P c s0 x); [eauto|discriminate]. }
      rewrite (Ap _ _ _ _ H0). cbn. now rewrite E. }
    specialize (IH s1 s A1 H). destruct (C46_steps_bounded P c L K s0 A e s1 E) as [W1 W2].
    assert (Hal : alive s0 \/ ~ alive s0) by (unfold alive; destruct (a_phase s0); auto).
    destruct Hal as [Hal|Hal].
    2:{ destruct (dead_steps _ _ _ _ _ Hal E) as [i ->]. lia. }
    specialize (W2 Hal).
    destruct e as [|st|st ok|i|i ok| |]; try (specialize (W2 ltac:(discriminate) ltac:(intros [X _]; discriminate)); lia); [|lia].
    specialize (W2 ltac:(discriminate)). cbn [astep] in E.
    assert (Nx : a_phase s1 <> a_phase s0 \/ a_next s1 <> a_next s0 -> weight c s1 < weight c s0).
    { intros N. apply W2. intros [_ X]. subst s1. destruct N; congruence. }
    destruct (a_phase s0) eqn:Ep; try discriminate. destruct (_ <? _); [|discriminate].
    destruct (header c (a_next s0)) as [h| |].
    2,3: injection E as E; assert (Hw : weight c s1 < weight c s0) by (apply Nx; left; rewrite <- E; discriminate);
         clear - IH Hw; destruct (a_free s0); lia.
    destruct (should_be_archived h).
    + destruct (a_free s0) as [|b free]; [lia|]. injection E as E.
      assert (Hw : weight c s1 < weight c s0) by (apply Nx; right; rewrite <- E; cbn [a_next]; clear; lia). clear - IH Hw. lia.
    + injection E as E.
      assert (Hw : weight c s1 < weight c s0) by (apply Nx; right; rewrite <- E; cbn [a_next]; clear; lia).
      clear - IH Hw. destruct (a_free s0); lia. }
  intros es s H. assert (X : archiving P c (anew c)) by (exists []; reflexivity). specialize (G es (anew c) s X H).
  assert (W : weight c (anew c) = 4 * ac_count c + 6).
  { unfold weight, anew, bufs_weight. cbn [a_phase a_next a_bufs a_puts fold_right length]. lia. }
  rewrite W in G. exact G.
Qed.

(** While it has not ended, some step that makes progress and does not fail is
    possible, given at least one buffer and objects below 4 GiB. *)
Theorem C46_never_stuck : forall P c, lawful P -> aconf_ok c -> 0 < ac_concurrency c ->
  (forall i level, ac_comp c = CompZstd level -> (N.of_nat (length (zenc P level (contents c i))) < 2 ^ 32)%N) ->
  forall s, archiving P c s -> alive s ->
  exists e s', astep P c s e = Some s' /\ weight c s' < weight c s /\ (alive s' \/ a_phase s' = PDone).
Proof.
  intros P c L K Hc Hz s A Hal. destruct (archiving_inv P c s A) as [I O].
  pose proof (C46_steps_bounded P c L K s A) as SB.
  assert (Use : forall e s', astep P c s e = Some s' -> (forall i, e <> AStored i) -> ~ (e = AStart /\ s' = s) ->
     (alive s' \/ a_phase s' = PDone) ->
     exists e s', astep P c s e = Some s' /\ weight c s' < weight c s /\ (alive s' \/ a_phase s' = PDone)).
  { intros e s' H1 H2 H3 H4. exists e, s'. split; [exact H1|]. split; [|exact H4]. now apply (SB e s' H1). }
  destruct (a_phase s) eqn:Ep; unfold alive in Hal; rewrite Ep in Hal; try contradiction.
  - (* PLoop *)
    destruct (a_bufs s) as [|[st [b f]] bufs] eqn:Eb.
    + destruct (a_next s <? ac_count c) eqn:En.
      * assert (Hh : exists h, header c (a_next s) = Ok h).
        { unfold header, index. destruct (nth_error (ac_headers c) (a_next s)) eqn:E; [eauto|].
          apply nth_error_None in E. pose proof (k_count c K). lia. }
        destruct Hh as [h Hh].
        assert (Hf : a_free s <> []).
        { (* the pool always has [concurrency] buffers while the run is alive *)
          assert (G : forall es s0, (alive s0 -> length (a_bufs s0) + length (a_free s0) = ac_concurrency c) ->
             arun P c s0 es = Some s -> alive s -> length (a_bufs s) + length (a_free s) = ac_concurrency c).
          { clear. induction es as [|e es IH]; intros s0 H0 H Ha; cbn in H; [injection H as <-; auto|].
            destruct (astep P c s0 e) as [s1|] eqn:E; [|discriminate]. apply (IH s1); auto. clear H IH. intros Ha1. clear Ha.
            assert (R : forall st x, find_buf (a_bufs s0) st = Some x -> S (length (remove_buf (a_bufs s0) st)) = length (a_bufs s0)).
            { intros st x Hx. apply remove_buf_perm in Hx. apply Permutation_length in Hx. cbn in Hx. lia. }
            destruct e as [|st|st ok|i|i ok| |]; cbn [astep] in E.
            - destruct (a_phase s0) eqn:Ep; try discriminate. unfold alive in H0. rewrite Ep in H0. specialize (H0 Logic.I).
              destruct (_ <? _); try discriminate.
              destruct (header c _); try (injection E as <-; cbn in Ha1; contradiction). destruct (should_be_archived _).
              + destruct (a_free s0) eqn:Ef; injection E as <-; [rewrite Ef; exact H0|]. cbn in *. rewrite app_length. cbn. lia.
              + injection E as <-. exact H0.
            - destruct (a_phase s0) eqn:Ep; try discriminate. unfold alive in H0. rewrite Ep in H0. specialize (H0 Logic.I).
              destruct (find_buf (a_bufs s0) st) as [[b [|]]|] eqn:Ef; try discriminate.
              destruct (header c st); try discriminate. injection E as <-. cbn. rewrite app_length. apply R in Ef. cbn. lia.
            - destruct (a_phase s0) eqn:Ep; try discriminate. unfold alive in H0. rewrite Ep in H0. specialize (H0 Logic.I).
              destruct (find_buf (a_bufs s0) st) as [[b f]|] eqn:Ef; try discriminate.
              apply R in Ef. destruct ok; [|injection E as <-; cbn in Ha1; contradiction]. destruct f; [|discriminate]. injection E as <-.
              unfold start_upload in *. destruct (is_zero_stripe _); [cbn; rewrite app_length; cbn; lia|].
              destruct (stripe_object _ _ _ _ _ _); try (cbn in Ha1; contradiction). destruct (seen_key _ _); cbn; rewrite app_length; cbn; lia.
            - destruct (nth_error _ _); [|discriminate]. injection E as <-. exact (H0 Ha1).
            - destruct (nth_error _ _); [|discriminate]. destruct (a_phase s0) eqn:Ep; try discriminate; unfold alive in H0; rewrite Ep in H0; specialize (H0 Logic.I).
              + destruct ok; [destruct (a_inflight s0)|]; injection E as <-; exact H0.
              + destruct (bytes_eqb _ _); [|injection E as <-; exact H0].
                destruct ok; [destruct (serialize_stripe_mapping _ _ _ _)|]; injection E as <-; exact H0.
              + destruct (bytes_eqb _ _); injection E as <-; exact H0.
            - destruct (a_phase s0) eqn:Ep; try discriminate; injection E as <-; cbn in Ha1; contradiction.
            - destruct (a_phase s0) eqn:Ep; try discriminate. unfold alive in H0. rewrite Ep in H0. specialize (H0 Logic.I).
              destruct (_ && _); [|discriminate].
              destruct (serialize_stripe_mapping _ _ _ _); [|injection E as <-; exact H0..].
              destruct (archive_metadata_of _ _); injection E as <-; exact H0. }
          destruct A as [es HA]. intros Ef.
          assert (X : length (a_bufs s) + length (a_free s) = ac_concurrency c).
          { apply (G es (anew c)); auto.
            - intros _. cbn. apply seq_length.
            - unfold alive. now rewrite Ep. }
          rewrite Ef, Eb in X. cbn in X. lia. }
        destruct (astep P c s AStart) as [s1|] eqn:E.
        2:{ exfalso. cbn [astep] in E. rewrite Ep, En, Hh in E. destruct (should_be_archived h); [destruct (a_free s)|]; discriminate. }
        apply (Use AStart s1 E); [discriminate| |].
        -- intros [_ ->]. cbn [astep] in E. rewrite Ep, En, Hh in E.
           assert (N : forall x y, Some x = Some y -> a_next x = a_next y) by congruence.
           destruct (should_be_archived h); [destruct (a_free s); [contradiction|]|]; apply N in E; cbn in E; lia.
        -- left. cbn [astep] in E. rewrite Ep, En, Hh in E. unfold alive.
           destruct (should_be_archived h); [destruct (a_free s); [contradiction|]|]; injection E as <-; cbn; exact Logic.I.
      * destruct (a_puts s) as [|p puts] eqn:Eu.
        -- pose proof (i_inflight _ _ _ I Ep) as Ei. rewrite Eu in Ei. cbn in Ei.
           destruct (serialize_ok P (ac_cipher c) L (a_map s) (ac_hmac_key c)) as [bb Es].
           destruct (metadata_facts P c L K) as (m & Em & _).
           assert (E : astep P c s ADrained = Some (start_put PMeta META_NAME (json P m) s)).
           { cbn [astep]. rewrite Ep, Eb, Ei, Es, Em. replace (ac_count c <=? a_next s) with true by lia. reflexivity. }
           apply (Use _ _ E); [discriminate|intros [X _]; discriminate|left; exact Logic.I].
        -- pose proof (i_inflight _ _ _ I Ep) as Ei. rewrite Eu in Ei. cbn in Ei.
           destruct (astep P c s (AUploaded 0 true)) as [s1|] eqn:E.
           ++ apply (Use _ _ E); [discriminate|intros [X _]; discriminate|]. left. cbn [astep] in E. rewrite Eu, Ep, Ei in E.
              cbn in E. injection E as <-. unfold alive. cbn. now rewrite Ep.
           ++ exfalso. cbn [astep] in E. rewrite Eu, Ep, Ei in E. cbn in E. discriminate.
    + assert (Hin : In (st, (b, f)) (a_bufs s)) by (rewrite Eb; now left).
      apply (i_buf _ _ _ I) in Hin. destruct Hin as (_ & Hd & Hm).
      assert (Hfb : find_buf (a_bufs s) st = Some (b, f)) by (rewrite Eb; cbn; now rewrite Nat.eqb_refl).
      destruct f.
      * specialize (Hm eq_refl).
        assert (E : astep P c s (AFetched st true) = Some (start_upload P c st b s)) by (cbn [astep]; now rewrite Ep, Hfb).
        apply (Use _ _ E); [discriminate|intros [X _]; discriminate|]. left. unfold start_upload. rewrite Hm.
        destruct (is_zero_stripe (contents c st)); [unfold alive; cbn; now rewrite Ep|].
        assert (HL : length (contents c st) mod SECTOR = 0).
        { rewrite contents_length by (auto; apply Hd). unfold stripe_size, SECTOR. apply Nat.mod_mul. lia. }
        assert (Ho : exists o, stripe_object P (ac_cipher c) (ac_comp c) (ac_ssc c) st (contents c st) = Ok o).
        { destruct (C27_framing_defined P (ac_comp c) (contents c st) HL) as [o0 E0].
          { destruct (ac_comp c) eqn:Ec; [exact Logic.I|]. now apply Hz. }
          pose proof (compress_aligned P _ _ _ E0) as Al0. unfold stripe_object. rewrite E0. cbn [bindr].
          unfold maybe_encrypt. rewrite Al0. cbn [Nat.eqb negb]. destruct (ac_cipher c) as [k|]; [|eauto].
          destruct (xts_total P L k (xenc P k) o0 (N.of_nat st * ac_ssc c) (or_introl eq_refl) Al0) as (ct & E1 & _). eauto. }
        destruct Ho as [o Ho]. rewrite Ho. destruct (seen_key _ _); unfold alive; cbn; now rewrite Ep.
      * assert (Hh : exists h, header c st = Ok h).
        { destruct Hd as (_ & h & E & _). unfold header, index. rewrite E. eauto. }
        destruct Hh as [h Hh]. destruct (astep P c s (AFill st)) as [s1|] eqn:E.
        -- apply (Use _ _ E); [discriminate|intros [X _]; discriminate|]. left. cbn [astep] in E. rewrite Ep, Hfb, Hh in E.
           injection E as <-. exact Logic.I.
        -- exfalso. cbn [astep] in E. rewrite Ep, Hfb, Hh in E. discriminate.
  - (* PMeta *)
    unfold only_put in O. rewrite Ep in O. destruct O as (q & Eq & Nq).
    destruct (serialize_ok P (ac_cipher c) L (a_map s) (ac_hmac_key c)) as [bb Es].
    destruct (astep P c s (AUploaded 0 true)) as [s1|] eqn:E.
    + apply (Use _ _ E); [discriminate|intros [X _]; discriminate|]. left. cbn [astep] in E. rewrite Eq, Ep in E. cbn [nth_error] in E.
      rewrite Nq, bytes_eqb_refl, Es in E. injection E as <-. exact Logic.I.
    + exfalso. cbn [astep] in E. rewrite Eq, Ep in E. cbn [nth_error] in E. rewrite Nq, bytes_eqb_refl, Es in E. discriminate.
  - (* PMapping *)
    unfold only_put in O. rewrite Ep in O. destruct O as (q & Eq & Nq).
    destruct (astep P c s (AUploaded 0 true)) as [s1|] eqn:E.
    + apply (Use _ _ E); [discriminate|intros [X _]; discriminate|]. right. cbn [astep] in E. rewrite Eq, Ep in E. cbn [nth_error] in E.
      rewrite Nq, bytes_eqb_refl in E. injection E as <-. reflexivity.
    + exfalso. cbn [astep] in E. rewrite Eq, Ep in E. cbn [nth_error] in E. rewrite Nq, bytes_eqb_refl in E. discriminate.
Qed.

(** So every run can be completed, whatever happened before. *)
Theorem C46_can_always_finish : forall P c, lawful P -> aconf_ok c -> 0 < ac_concurrency c ->
  (forall i level, ac_comp c = CompZstd level -> (N.of_nat (length (zenc P level (contents c i))) < 2 ^ 32)%N) ->
  forall s, archiving P c s -> alive s -> exists es s', arun P c s es = Some s' /\ a_phase s' = PDone.
Proof.
  intros P c L K Hc Hz.
  assert (G : forall n s, weight c s <= n -> archiving P c s -> alive s -> exists es s', arun P c s es = Some s' /\ a_phase s' = PDone).
  { induction n as [|n IH]; intros s Hn A Hal.
    - unfold alive, weight in *. destruct (a_phase s); try contradiction; lia.
    - destruct (C46_never_stuck P c L K Hc Hz s A Hal) as (e & s1 & E & Hw & [Hal1|Hd]).
      + destruct (IH s1) as (es & s2 & E2 & D2); auto; [lia| |].
        * destruct A as [es0 H0]. exists (es0 ++ [e]).
          assert (Ap : forall es a s0 s3, arun P c s0 es = Some s3 -> arun P c s0 (es ++ a) = arun P c s3 a).
          { clear. induction es as [|x es IH]; intros a s0 s3 H; cbn in *; [congruence|].
            destruct (astep P c s0 x); [eauto|discriminate]. }
          rewrite (Ap _ _ _ _ H0). cbn. now rewrite E.
        * exists (e :: es), s2. split; [cbn; now rewrite E|exact D2].
      + exists [e], s1. split; [cbn; now rewrite E|exact Hd]. }
  intros s A Hal. now apply (G (weight c s) s).
Qed.
