(** Non-vacuity of C21, C23-C29 and C46, and the unbounded number of uploads. *)
From Coq Require Import List Arith NArith ZArith Bool Lia Sorted Permutation ZifyBool ZifyNat ZifyN.
Import ListNotations.
From Verif Require Import Base BaseFacts ListFacts MetadataModel CryptModel CryptSpec CryptProofs KeyModel CryptProps
  ArchiveModel ArchiverModel ArchiveSpec ArchiveProofs ArchiverProofs ArchiverProofs2 ArchiveProps WireModel ArchiveToy ArchiveProps2.

(** A disk of five one-sector stripes: written; absent; in the source only;
    written but all zero; fetched from the source (with the contents of stripe 0,
    at another position).  Encrypted, compressed, wrapped keys, two buffers. *)
Definition demo (comp : compression) (cipher : option (list byte * list byte)) : aconf :=
  mk_aconf 5 [2; 0; 4; 2; 5]%N 1 cipher comp
    (mk_kek MAes256Gcm (Some (repeat 7%N 32)) (Some [1; 2; 3]%N)) (repeat 9%N 32) (repeat 4%N 12) (repeat 5%N 12) 2
    (fun st => match st with 3 => repeat 0%N 512 | _ => repeat (N.of_nat (11 + st mod 4)) 512 end)
    (fun st => repeat (N.of_nat (100 + st)) 512).
Definition demo_enc := demo (CompZstd 3) (Some (repeat 1%N 32, repeat 2%N 32)).
Definition demo_plain := demo CompNone None.

Definition demo_events : list aevent :=
  [AStart; AStart; AStart; AStart; AFill 2; AFetched 2 true; AFill 0; AStart; AFetched 0 true; AStored 1; AFill 3; AStart;
   AFill 4; AUploaded 1 true; AFetched 4 true; AFetched 3 true; AUploaded 0 true].
Definition finish_enc := demo_events ++ [AUploaded 0 true; ADrained; AUploaded 0 true; AUploaded 0 true].
Definition finish_plain := demo_events ++ [ADrained; AUploaded 0 true; AUploaded 0 true].

Lemma demo_ok : forall comp cipher, comp_typed comp ->
  match cipher with None => True | Some (a, b) => length a = 32 /\ length b = 32 end ->
  match cipher with None => True | Some (a, b) => bytes_ok a /\ bytes_ok b end -> aconf_ok (demo comp cipher).
Proof.
  intros comp cipher H1 H2 H3. constructor.
  - cbn. lia.
  - reflexivity.
  - cbn [demo ac_ssc]. lia.
  - intros st _. cbn [ac_dev demo]. destruct st as [|[|[|[|st]]]]; apply repeat_length.
  - intros st _. apply repeat_length.
  - exact H1.
  - reflexivity.
  - split; reflexivity.
  - exact H2.
  - cbn. eauto.
  - cbn [demo ac_hmac_key ac_nonce_key ac_nonce_hmac ac_cipher].
    repeat (split; [apply bytes_ok_repeat; reflexivity|]). exact H3.
Qed.

Lemma demo_stripes : forall comp cipher st, has_data (demo comp cipher) st -> In st [0; 2; 3; 4].
Proof.
  intros comp cipher st (Hs & h & E & D). cbn in Hs, E.
  destruct st as [|[|[|[|[|st]]]]]; cbn; auto 6; [|lia]. cbn in E. injection E as <-. destruct D; discriminate.
Qed.

Lemma demo_distinct : forall comp cipher P,
  (let obj := fun st => stripe_object P cipher comp 1 st (contents (demo comp cipher) st) in
   forallb (fun st => forallb (fun st' =>
     match obj st, obj st' with
     | Ok o, Ok o' => bytes_eqb o o' || negb (bytes_eqb (sha P o) (sha P o'))
     | _, _ => true
     end) [0; 2; 3; 4]) [0; 2; 3; 4] = true) -> no_collision P (demo comp cipher).
Proof.
  intros comp cipher P H st st' o o' D D' E E' Hs. cbv zeta in H. rewrite forallb_forall in H.
  specialize (H st (demo_stripes _ _ _ D)). rewrite forallb_forall in H. specialize (H st' (demo_stripes _ _ _ D')).
  cbn [demo ac_cipher ac_comp ac_ssc] in E, E'. rewrite E, E' in H. apply orb_true_iff in H. destruct H as [H|H].
  - now apply bytes_eqb_spec.
  - rewrite Hs, bytes_eqb_refl in H. discriminate.
Qed.

Definition done (c : aconf) (es : list aevent) : bool :=
  match arun toy_prims c (anew c) es with Some s => match a_phase s with PDone => true | _ => false end | None => false end.

Example C23_nonvacuous :
  lawful toy_prims /\
  (aconf_ok demo_enc /\ no_collision toy_prims demo_enc /\ exists s, arun toy_prims demo_enc (anew demo_enc) finish_enc = Some s /\ a_phase s = PDone) /\
  (aconf_ok demo_plain /\ no_collision toy_prims demo_plain /\ exists s, arun toy_prims demo_plain (anew demo_plain) finish_plain = Some s /\ a_phase s = PDone).
Proof.
  assert (G : forall c es, done c es = true -> exists s, arun toy_prims c (anew c) es = Some s /\ a_phase s = PDone).
  { intros c es H. unfold done in H. destruct (arun toy_prims c (anew c) es) as [s|]; [|discriminate]. exists s. split; auto.
    destruct (a_phase s); auto; discriminate. }
  split; [exact toy_lawful|]. split; (split; [apply demo_ok; cbn; auto; try reflexivity; split; apply (bytes_ok_repeat 32); reflexivity|split; [apply demo_distinct; vm_compute; reflexivity|apply G; vm_compute; reflexivity]]).
Qed.

(** C25-C27: a typed mapping, typed metadata, a framed payload. *)
Example C25_nonvacuous : map_typed [(1, SZero); (4, SDigest (repeat 3%N 32))] /\ ameta_typed (mk_ameta 1 8 (Some [1; 2]%N) (CompZstd 3) [] []) /\
  (exists o, compress toy_prims (CompZstd 3) (repeat 1%N 512) = Ok o /\ length o = 1024).
Proof.
  split; [|split].
  - split; cbn; repeat constructor.
  - split; [reflexivity|]. split; [reflexivity|]. split; [reflexivity|].
    split; [split; [repeat constructor|reflexivity]|split; constructor].
  - eexists. split; [vm_compute; reflexivity|reflexivity].
Qed.

(** C24: an altered object is rejected, and the unaltered archive opens. *)
Definition demo_store (f : store -> store) : store :=
  match arun toy_prims demo_enc (anew demo_enc) finish_enc with Some s => f (a_store s) | None => empty_store end.
Definition first_key : list byte :=
  match stripe_object toy_prims (ac_cipher demo_enc) (ac_comp demo_enc) 1 0 (contents demo_enc 0) with
  | Ok o => object_key (sha toy_prims o) | _ => [] end.
Example C24_nonvacuous :
  let altered := demo_store (fun st => store_put st first_key (repeat 6%N 1024)) in
  match open_archive toy_prims altered (ac_kek demo_enc) with
  | Ok src => is_err (fetch_stripe toy_prims altered src 0 512) &&
              match fetch_stripe toy_prims altered src 4 512 with Ok d => bytes_eqb d (contents demo_enc 4) | _ => false end
  | _ => false
  end = true.
Proof. vm_compute. reflexivity. Qed.

(** C28: a run cut off while the metadata is visible but the mapping is not. *)
Example C28_nonvacuous :
  match arun toy_prims demo_enc (anew demo_enc) (demo_events ++ [AUploaded 0 true; ADrained; AUploaded 0 true]) with
  | Some s => is_err (open_archive toy_prims (a_store s) (ac_kek demo_enc)) &&
              match a_store s META_NAME with Some _ => true | None => false end
  | None => false
  end = true.
Proof. vm_compute. reflexivity. Qed.

(** C46: its hypotheses hold of both demo disks. *)
Example C46_nonvacuous : 0 < ac_concurrency demo_enc /\
  (forall i level, ac_comp demo_enc = CompZstd level -> (N.of_nat (length (zenc toy_prims level (contents demo_enc i))) < 2 ^ 32)%N) /\
  alive (anew demo_enc).
Proof.
  split; [cbn; lia|]. split; [|exact Logic.I]. intros i level _. cbn [zenc toy_prims toy_crypto with_wire].
  unfold contents. destruct (nth_error _ i) as [h|]; [|reflexivity].
  assert (length (ac_dev demo_enc i) = 512).
  { cbn [demo_enc demo ac_dev]. destruct i as [|[|[|[|i]]]]; apply repeat_length. }
  assert (length (ac_src demo_enc i) = 512) by (cbn [demo_enc demo ac_src]; apply repeat_length).
  destruct (_ || _); lia.
Qed.

(** ** C29: the number of uploads in progress is not bounded by the configured
    concurrency.  With one buffer and [k] different stripes there is a run in
    which [k] uploads are in progress at once. *)
Definition many (k : nat) : aconf :=
  mk_aconf k (repeat 2%N k) 1 None CompNone (mk_kek MNone None None) (repeat 9%N 32) (repeat 4%N 12) (repeat 5%N 12) 1
    (fun st => le_bytes 512 (N.of_nat st + 1)) (fun _ => repeat 0%N 512).

Lemma many_ok : forall k, (N.of_nat k < 2 ^ 56)%N -> aconf_ok (many k).
Proof.
  intros k H. constructor.
  - cbn. rewrite repeat_length. lia.
  - exact H.
  - cbn. lia.
  - intros st _. cbn [ac_dev many]. now rewrite le_bytes_length.
  - intros st _. apply repeat_length.
  - exact Logic.I.
  - reflexivity.
  - split; reflexivity.
  - exact Logic.I.
  - exact Logic.I.
  - cbn [many ac_hmac_key ac_nonce_key ac_nonce_hmac ac_cipher].
    repeat (split; [apply bytes_ok_repeat; reflexivity|]). exact Logic.I.
Qed.

Lemma le_bytes_firstn : forall n m x, n <= m -> firstn n (le_bytes m x) = le_bytes n x.
Proof.
  induction n as [|n IH]; intros m x H; [reflexivity|]. destruct m as [|m]; [lia|]. cbn [le_bytes firstn]. f_equal. apply IH. lia.
Qed.

Definition many_object (st : nat) : list byte := le_bytes 512 (N.of_nat st + 1).
Definition many_key (st : nat) : list byte := object_key (toy_sha (many_object st)).

Lemma toy_sha_ok : forall d, bytes_ok (toy_sha d).
Proof. intros d. apply le_bytes_ok. Qed.
Lemma toy_sha_le : forall n x, 16 <= n -> (x < 2 ^ 128)%N -> toy_sha (le_bytes n x) = le_bytes 32 x.
Proof. intros n x Hn Hx. unfold toy_sha. rewrite le_bytes_firstn by exact Hn. rewrite le_val_le_bytes; [reflexivity|exact Hx]. Qed.

Lemma many_key_inj : forall a b, (N.of_nat a < 2 ^ 56)%N -> (N.of_nat b < 2 ^ 56)%N -> many_key a = many_key b -> a = b.
Proof.
  intros a b Ha Hb H. unfold many_key, many_object in H. apply object_key_inj in H; try apply toy_sha_ok.
  rewrite !toy_sha_le in H by lia. apply le_bytes_inj in H; [lia|..]; cbn; lia.
Qed.

Lemma many_nonzero : forall st, (N.of_nat st < 2 ^ 56)%N -> is_zero_stripe (many_object st) = false.
Proof.
  intros st H. destruct (is_zero_stripe (many_object st)) eqn:E; [|reflexivity]. exfalso.
  apply is_zero_spec in E. apply all_zero_repeat in E. unfold many_object in E. rewrite le_bytes_length in E.
  apply (f_equal (firstn 8)) in E. rewrite le_bytes_firstn in E by lia.
  assert (X : le_val (le_bytes 8 (N.of_nat st + 1)) = 0%N) by (rewrite E; reflexivity).
  rewrite le_val_le_bytes in X; [lia|]. apply (N.lt_trans _ (2 ^ 57)); [change (2 ^ 57)%N with (2 * 2 ^ 56)%N; lia|reflexivity].
Qed.

Theorem C29_refuted_upload_concurrency : forall k, (N.of_nat k < 2 ^ 56)%N ->
  exists c, aconf_ok c /\ ac_concurrency c = 1 /\
  exists s, archiving toy_prims c s /\ a_phase s = PLoop /\ length (a_puts s) = k.
Proof.
  intros k Hk. exists (many k). split; [now apply many_ok|]. split; [reflexivity|].
  assert (G : forall j, j <= k -> exists es s, arun toy_prims (many k) (anew (many k)) es = Some s /\
     a_phase s = PLoop /\ a_next s = j /\ a_free s = [0] /\ a_bufs s = [] /\ length (a_puts s) = j /\
     (forall key, In key (a_seen s) -> exists i, i < j /\ key = many_key i)).
  { induction j as [|j IH]; intros Hj.
    - exists [], (anew (many k)). split; [reflexivity|]. cbn. repeat (split; [reflexivity|]). intros key [].
    - destruct IH as (es & s & E & Ep & En & Ef & Eb & El & Es); [lia|].
      assert (Ap : forall es a s0 s3, arun toy_prims (many k) s0 es = Some s3 -> arun toy_prims (many k) s0 (es ++ a) = arun toy_prims (many k) s3 a).
      { clear. induction es as [|x es IH]; intros a s0 s3 H; cbn in *; [congruence|].
        destruct (astep toy_prims (many k) s0 x); [eauto|discriminate]. }
      assert (Hh : header (many k) j = Ok 2%N).
      { unfold header, index. cbn [ac_headers many]. rewrite (nth_error_nth' _ 2%N) by (rewrite repeat_length; lia).
        now rewrite nth_repeat. }
      eexists (es ++ [AStart; AFill j; AFetched j true]). rewrite (Ap _ _ _ _ E).
      cbn [arun]. cbn [astep]. rewrite Ep, En, Hh. cbn [ac_count many]. replace (j <? k) with true by lia.
      replace (should_be_archived 2) with true by reflexivity. rewrite Ef.
      cbn [astep a_phase a_bufs]. rewrite Eb. cbn [app find_buf fst snd]. rewrite Nat.eqb_refl.
      cbn [a_phase a_bufs remove_buf fst app find_buf snd a_mem a_free a_next a_puts a_seen a_inflight a_map a_store a_reads a_started]. rewrite ?Nat.eqb_refl. cbn [app find_buf fst snd]. rewrite ?Nat.eqb_refl.
      eexists. split; [reflexivity|].
      unfold start_upload. cbn [a_mem a_bufs a_free a_next a_puts a_seen]. rewrite upd_eq.
      replace (stripe_bytes (many k) j 2) with (many_object j) by reflexivity. rewrite many_nonzero by lia.
      assert (Ho : stripe_object toy_prims (ac_cipher (many k)) (ac_comp (many k)) (ac_ssc (many k)) j (many_object j) = Ok (many_object j)).
      { unfold stripe_object, compress, maybe_encrypt, many_object. cbn [ac_cipher ac_comp many bindr].
        rewrite le_bytes_length. reflexivity. }
      rewrite Ho. change (object_key (sha toy_prims (many_object j))) with (many_key j).
      assert (Hs : seen_key (a_seen s) (many_key j) = false).
      { destruct (seen_key (a_seen s) (many_key j)) eqn:X; [|reflexivity]. exfalso. apply seen_key_In in X.
        destruct (Es _ X) as (i & Hi & Ei). apply many_key_inj in Ei; lia. }
      rewrite Hs. cbn [a_phase a_next a_free a_bufs a_puts a_seen remove_buf fst]. rewrite Nat.eqb_refl.
      split; [reflexivity|]. split; [reflexivity|]. split; [reflexivity|]. split; [reflexivity|].
      split; [rewrite app_length; cbn; lia|]. intros key [<-|Hin]; [exists j; auto|].
      destruct (Es key Hin) as (i & Hi & Ei). exists i. split; [lia|exact Ei]. }
  destruct (G k (le_n k)) as (es & s & E & Ep & _ & _ & _ & El & _). exists s. split; [exists es; exact E|auto].
Qed.

Print Assumptions C21_uncompressed_archive_tweaks_disjoint.
Print Assumptions C21_refuted_compressed_archive.
Print Assumptions C23_archive_roundtrip.
Print Assumptions C24_tampering_detected.
Print Assumptions C25_mapping_roundtrip.
Print Assumptions C25_decoder_rejects.
Print Assumptions C26_metadata_input_determines_fields.
Print Assumptions C27_framing_roundtrip.
Print Assumptions C28_openable_is_complete.
Print Assumptions C28_mapping_uploaded_last.
Print Assumptions C29_uploads_once_and_bounded_fetches.
Print Assumptions C29_refuted_upload_concurrency.
Print Assumptions C46_work_bounded.
Print Assumptions C46_can_always_finish.
