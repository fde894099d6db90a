(** From the archiver's invariant to what a reader of the archive sees. *)
From Coq Require Import List Arith NArith ZArith Bool Lia Sorted Permutation ZifyBool ZifyNat ZifyN.
Import ListNotations.
From Verif Require Import Base BaseFacts ListFacts MetadataModel CryptModel CryptSpec CryptProofs KeyModel CryptProps
  ArchiveModel ArchiverModel ArchiveSpec ArchiveProofs ArchiverProofs.

Lemma is_zero_spec : forall d, is_zero_stripe d = true <-> all_zero d.
Proof.
  intros d. unfold is_zero_stripe, all_zero. rewrite forallb_forall, Forall_forall.
  split; intros H x Hx; apply H in Hx; now apply N.eqb_eq.
Qed.

Lemma all_zero_repeat : forall d, all_zero d -> d = repeat 0%N (length d).
Proof. induction d as [|x d IH]; intros H; [reflexivity|]. inversion H; subst. cbn. f_equal. auto. Qed.

Lemma sorted_nodup : forall l, StronglySorted lt l -> NoDup l.
Proof.
  induction l as [|x l IH]; intros H; [constructor|]. inversion H as [|? ? H1 H2]; subst. constructor; auto.
  intros Hin. rewrite Forall_forall in H2. apply H2 in Hin. lia.
Qed.

Lemma In_map_get : forall m st x, NoDup (map fst m) -> In (st, x) m -> map_get m st = Some x.
Proof.
  induction m as [|[k v] m IH]; intros st x ND Hin; [contradiction|]. cbn in ND. inversion ND; subst. cbn.
  destruct Hin as [E|Hin].
  - injection E as -> ->. now rewrite Nat.eqb_refl.
  - destruct (k =? st) eqn:E; [|auto]. apply Nat.eqb_eq in E. subst k. exfalso.
    apply H1. apply (in_map fst) in Hin. exact Hin.
Qed.

Section Read.
Variable P : prims.
Variable c : aconf.
Hypothesis L : lawful P.
Hypothesis K : aconf_ok c.

Lemma aead_of : aead (seal P) (open_ P).
Proof. split; [apply (l_aead P L)|apply (l_aead_len P L)]. Qed.

Lemma metadata_facts : exists m, archive_metadata_of P c = Ok m /\ ameta_typed m /\
  am_version m = ARCHIVE_FORMAT_VERSION /\ am_ssc m = ac_ssc c /\ am_comp m = ac_comp c /\
  decrypt_hmac_key P m (ac_kek c) = Ok (ac_hmac_key c) /\
  verify_metadata_hmac_tag P (ac_hmac_key c) m = Ok tt /\
  encrypt_key_data (seal P) (ac_nonce_hmac c) (ac_kek c) (ac_hmac_key c) = Ok (am_hmac_key m) /\
  (match am_key m with
   | None => Ok None
   | Some e => let! x := from_encrypted_key (open_ P) (ac_kek c) e in Ok (Some x)
   end) = Ok (ac_cipher c).
Proof.
  pose proof (k_kek c K) as U. destruct (k_nonces c K) as [N1 N2]. pose proof (k_cipher c K) as KC.
  destruct (k_bytes c K) as (B1 & B2 & B3 & B4).
  destruct (C22_key_data_roundtrip _ _ aead_of (ac_kek c) (ac_nonce_hmac c) (ac_hmac_key c) U N2) as (hk & H1 & H2).
  assert (EK : exists ek, (match ac_cipher c with
             | None => Ok None
             | Some k => let! e := encrypted_key (seal P) (ac_nonce_key c) (ac_kek c) k in Ok (Some e)
             end) = Ok ek /\ match ek with None => True | Some k => bytes_ok k /\ (N.of_nat (length k) < 2 ^ 64)%N end /\
     (match ek with
      | None => Ok None
      | Some e => let! x := from_encrypted_key (open_ P) (ac_kek c) e in Ok (Some x)
      end) = Ok (ac_cipher c)).
  { destruct (ac_cipher c) as [[a b]|]; [|exists None; auto]. destruct KC as [La Lb]. destruct B4 as [Ba Bb].
    destruct (C22_archive_key_roundtrip _ _ aead_of (ac_kek c) (ac_nonce_key c) a b U N1 La Lb) as (ct & E1 & E2).
    exists (Some ct). rewrite E1. split; [reflexivity|]. split; [|rewrite E2; reflexivity].
    unfold encrypted_key, encrypt_key_data, init_context, aes256gcm_encrypt, new_cipher in E1. cbn [fst snd] in E1.
    unfold usable in U. destruct (k_method (ac_kek c)).
    - apply Ok_inj in E1. subst ct. split; [now apply bytes_ok_app|]. rewrite app_length, La, Lb. reflexivity.
    - destruct U as (key & auth & Ea & Eb & Ec). rewrite Ea, Eb in E1. cbn [bindr fst snd] in E1. rewrite Ec in E1.
      cbn [Nat.eqb bindr] in E1. apply Ok_inj in E1. subst ct. split.
      { apply bytes_ok_app. split; [exact B2|]. apply (l_aead_bytes P L). now apply bytes_ok_app. }
      rewrite app_length, (l_aead_len P L), app_length, N1, La, Lb. reflexivity. }
  assert (EH : bytes_ok hk).
  { unfold encrypt_key_data, init_context, aes256gcm_encrypt, new_cipher in H1.
    unfold usable in U. destruct (k_method (ac_kek c)).
    - apply Ok_inj in H1. now subst hk.
    - destruct U as (key & auth & Ea & Eb & Ec). rewrite Ea, Eb in H1. cbn [bindr fst snd] in H1. rewrite Ec in H1.
      cbn [Nat.eqb bindr] in H1. apply Ok_inj in H1. subst hk. apply bytes_ok_app. split; [exact B3|].
      now apply (l_aead_bytes P L). }
  destruct EK as (ek & E1 & E2 & E3). unfold archive_metadata_of. rewrite E1. cbn [bindr]. rewrite H1. cbn [bindr].
  eexists. split; [reflexivity|]. cbn [am_version am_ssc am_key am_comp am_hmac_key am_hmac].
  split. { split; [reflexivity|]. split; [apply (k_ssc c K)|]. split; [apply (k_comp c K)|].
    split; [exact E2|]. split; [exact EH|apply (l_mac P L)]. }
  split; [reflexivity|]. split; [reflexivity|]. split; [reflexivity|]. split; [|split; [|split; [reflexivity|exact E3]]].
  - unfold decrypt_hmac_key. cbn [am_hmac_key]. rewrite H2. cbn [bindr]. now rewrite (k_hmac c K).
  - unfold verify_metadata_hmac_tag, verify_hmac_tag. cbn [am_hmac]. rewrite (proj1 (l_mac P L _ _)). cbn [Nat.eqb negb].
    change (metadata_hmac_input (mk_ameta ARCHIVE_FORMAT_VERSION (ac_ssc c) ek (ac_comp c) hk
      (mac P (ac_hmac_key c) (metadata_hmac_input (mk_ameta ARCHIVE_FORMAT_VERSION (ac_ssc c) ek (ac_comp c) hk [])))))
    with (metadata_hmac_input (mk_ameta ARCHIVE_FORMAT_VERSION (ac_ssc c) ek (ac_comp c) hk [])).
    now rewrite bytes_eqb_refl.
Qed.

Lemma map_typed_inv : forall s, ainv P c s -> map_typed (a_map s) /\ (N.of_nat (length (a_map s)) < 2 ^ 56)%N.
Proof.
  intros s I.
  enough (G : (N.of_nat (length (a_map s)) < 2 ^ 56)%N).
  { split; [|exact G]. split; [apply (i_sorted _ _ _ I)|]. split; [lia|].
    pose proof (i_map _ _ _ I) as F. eapply Forall_impl; [|exact F].
    intros [st x] [Hd Hx]. cbn [fst snd] in *. split.
    + destruct Hd as [Hd _]. pose proof (k_count56 c K). lia.
    + destruct x; auto. destruct Hx as [_ (o & _ & -> & _)]. apply (l_sha P L). }
  { pose proof (sorted_nodup _ (i_sorted _ _ _ I)) as ND. pose proof (i_map _ _ _ I) as F.
    assert (Incl : incl (map fst (a_map s)) (seq 0 (ac_count c))).
    { intros st Hin. apply in_map_iff in Hin. destruct Hin as ([k v] & E & Hin). cbn in E. subst k.
      rewrite Forall_forall in F. apply F in Hin. destruct Hin as [[Hd _] _]. apply in_seq. cbn in Hd. lia. }
    pose proof (NoDup_incl_length ND Incl) as Hl. rewrite map_length, seq_length in Hl. pose proof (k_count56 c K). lia. }
Qed.

Lemma keys_has_data : forall s, ainv P c s -> frozen c s -> forall st,
  (exists x, map_get (a_map s) st = Some x) <-> has_data c st.
Proof.
  intros s I [F _] st. split.
  - intros [x Hx]. apply map_get_In in Hx. pose proof (i_map _ _ _ I) as FM. rewrite Forall_forall in FM. apply FM in Hx. apply Hx.
  - intros Hd. apply F in Hd. apply in_map_iff in Hd. destruct Hd as ([k v] & E & Hin). cbn in E. subst k.
    exists v. apply In_map_get; auto. apply sorted_nodup. apply (i_sorted _ _ _ I).
Qed.

Lemma started_object : forall s h d, ainv P c s -> In (mk_put (object_key h) d) (a_started s) -> good_stripe P c (object_key h) d.
Proof.
  intros s h d I Hin. apply (i_started _ _ _ I) in Hin. cbn in Hin. destruct Hin as [G|[[E _]|[E _]]]; auto.
  - now apply object_key_meta in E.
  - now apply object_key_mapping in E.
Qed.

Lemma started_meta : forall s d, ainv P c s -> In (mk_put META_NAME d) (a_started s) ->
  exists m, archive_metadata_of P c = Ok m /\ d = json P m.
Proof.
  intros s d I Hin. apply (i_started _ _ _ I) in Hin. cbn in Hin. destruct Hin as [(st & _ & _ & _ & E)|[[_ G]|[E _]]]; auto.
  - symmetry in E. now apply object_key_meta in E.
  - now apply meta_mapping in E.
Qed.

Lemma started_mapping : forall s d, ainv P c s -> In (mk_put MAPPING_NAME d) (a_started s) ->
  serialize_stripe_mapping P (a_map s) (ac_hmac_key c) (ac_cipher c) = Ok d.
Proof.
  intros s d I Hin. apply (i_started _ _ _ I) in Hin. cbn in Hin. destruct Hin as [(st & _ & _ & _ & E)|[[E _]|[_ E]]]; auto.
  - symmetry in E. now apply object_key_mapping in E.
  - symmetry in E. now apply meta_mapping in E.
Qed.

(** Once the mapping has been started, everything else is in the store. *)
Lemma mapping_started_frozen : forall s d, ainv P c s -> In (mk_put MAPPING_NAME d) (a_started s) ->
  frozen c s /\ meta_stored s.
Proof.
  intros s d I Hin. destruct (i_tail _ _ _ I) as [t [T1 T2]].
  apply (in_map po_name) in Hin. cbn in Hin. rewrite T1, in_app_iff in Hin.
  assert (Ht : In MAPPING_NAME t).
  { destruct Hin as [Hin|Hin]; [|exact Hin]. apply in_rev in Hin. apply (i_keys _ _ _ I) in Hin. destruct Hin as [h Hh].
    symmetry in Hh. now apply object_key_mapping in Hh. }
  assert (NM : ~ In MAPPING_NAME [META_NAME]) by (intros [H|[]]; now apply meta_mapping in H).
  destruct (a_phase s).
  - subst t. contradiction.
  - destruct T2 as [-> _]. contradiction.
  - destruct T2 as (_ & ? & ?). auto.
  - destruct T2 as (_ & ? & ? & _). auto.
  - destruct T2 as [->|[->|(_ & ? & ?)]]; [contradiction|contradiction|auto].
  - destruct T2 as [->|[->|(_ & ? & ?)]]; [contradiction|contradiction|auto].
Qed.

Lemma open_complete : forall s, ainv P c s -> a_store s MAPPING_NAME <> None ->
  open_archive P (a_store s) (ac_kek c) = Ok (mk_source (ac_cipher c) (a_map s) (ac_ssc c) (ac_comp c)).
Proof.
  intros s I Hm. destruct (a_store s MAPPING_NAME) as [b|] eqn:Eb; [|contradiction]. clear Hm.
  pose proof (i_store _ _ _ I _ _ Eb) as Hb. destruct (mapping_started_frozen s b I Hb) as [F M].
  apply (started_mapping s b I) in Hb.
  unfold meta_stored in M. destruct (a_store s META_NAME) as [d|] eqn:Ed; [|contradiction]. clear M.
  pose proof (i_store _ _ _ I _ _ Ed) as Hd. apply (started_meta s d I) in Hd. destruct Hd as (m & Em & ->).
  destruct metadata_facts as (m' & Em' & Ty & V & S & C & HK & VM & _ & CI). rewrite Em in Em'. injection Em' as <-.
  unfold open_archive, fetch_metadata. rewrite Ed, (l_json P L m Ty), V, N.eqb_refl. cbn [bindr].
  rewrite HK. cbn [bindr]. rewrite VM. cbn [bindr]. rewrite CI. cbn [bindr]. rewrite Eb.
  destruct (map_typed_inv s I) as [MT ML].
  destruct (mapping_roundtrip P L (a_map s) (ac_hmac_key c) (ac_cipher c) MT ML) as (b' & E1 & E2).
  rewrite Hb in E1. injection E1 as <-. rewrite E2. cbn [bindr]. now rewrite S, C.
Qed.
End Read.
