(** C68: what an archive, a key or a secret is written as can be read back, byte for
    byte, and is what the formats' definitions say. *)
From Coq Require Import Sorted.
From Coq Require Import String List Arith NArith ZArith Bool Lia ZifyBool ZifyNat ZifyN.
From Verif Require Import Base BaseFacts KeyModel ArchiveModel ArchiverModel ArchiveSpec ArchiveProps ArchiveProps2 ArchiveToy ArchiveExamples
  RpcModel RpcSpec WireModel WireSpec WireProofs.
From Verif Require SecretsModel SecretsSpec SecretsProofs.
Import ListNotations.
Local Open Scope N_scope.

(** Base64: exactly one text for every byte string, and exactly those texts are read. *)
Theorem C68_base64 : forall l, bytes_ok l ->
  base64 l (b64_encode l) /\ (forall t, base64 l t -> t = b64_encode l).
Proof. intros l H. split; [now apply encode_base64|]. intros t. apply base64_canonical. Qed.

Theorem C68_base64_read : forall t l, b64_decode t = Some l <-> base64 l t.
Proof. intros t l. split; [apply decode_base64|apply base64_decode]. Qed.

(** The stripe mapping: what is written is the CBOR encoding of the map from stripes to
    digests, and every encoding of it is read as that map. *)
Theorem C68_mapping : forall m, map_typed m ->
  encodes (map_item m) (cbor_of_map m) /\ (forall t, encodes (map_item m) t -> map_of_cbor t = Some m).
Proof. intros m H. split; [now apply map_encodes|]. intros t. now apply map_any. Qed.

(** A mapping whose entries come in another order, or more than once, is read as the map
    in which the last entry of a stripe counts, in ascending order of the stripes. *)
Theorem C68_mapping_any_order : forall es t, N.of_nat (List.length es) < 2 ^ 64 -> Forall entry_typed es ->
  encodes (map_item es) t ->
  exists m, map_of_cbor t = Some m /\ StronglySorted lt (map fst m) /\ forall x y, In (x, y) m <-> last_entry x es y.
Proof.
  intros es t Hl Hf H. eexists. split; [apply (entries_any es t); assumption|].
  destruct (build_any es [] (SSorted_nil _)) as [Hs Hi]. split; [exact Hs|].
  intros x y. rewrite Hi. split; [intros [E|[_ []]]; exact E|auto].
Qed.

Theorem C68_mapping_file : forall f, mapping_typed f ->
  encodes (file_item f) (cbor_of_file f) /\ (forall t, encodes (file_item f) t -> file_of_cbor t = Some f).
Proof. intros f H. split; [now apply file_encodes|]. intros t. now apply file_any. Qed.

(** metadata.json. *)
Theorem C68_metadata : forall m, ameta_typed m ->
  (exists v, decode (meta_json m) = Some v /\ meta_value m v) /\ meta_json_dec (meta_json m) = Some m.
Proof. intros m H. split; [now apply meta_json_value|now apply meta_roundtrip]. Qed.

(** So an archive reads back as the disk it was taken from when only the ciphers, the
    digests and zstd are taken on trust (C23, C28, C24 without laws about formats). *)
(** No field of metadata.json is given twice. *)
Theorem C68_metadata_unambiguous : forall t l m k a x b y,
  decode t = Some (JObj l) -> meta_json_dec t = Some m ->
  In k ["format_version"; "stripe_sector_count"; "encryption_key"; "compression"; "hmac_key"; "metadata_hmac"]%string ->
  l = a ++ (text k, x) :: b -> ~ In (text k, y) (a ++ b).
Proof.
  intros t l m k a x b y D H Hk -> Hy.
  assert (G : get k (a ++ (text k, x) :: b) = None).
  { unfold get. rewrite filter_app. cbn [filter fst]. rewrite bytes_eqb_refl.
    assert (Hf : In (text k, y) (filter (fun kv => bytes_eqb (fst kv) (text k)) (a ++ b)))
      by (apply filter_In; split; [exact Hy|apply bytes_eqb_refl]).
    rewrite filter_app in Hf. destruct (filter _ a) as [|p pa]; cbn [app] in *.
    - destruct (filter _ b); [contradiction|reflexivity].
    - destruct pa; reflexivity. }
  unfold meta_json_dec in H. rewrite D in H.
  cbn [In] in Hk. destruct Hk as [<-|[<-|[<-|[<-|[<-|[<-|[]]]]]]];
    repeat match type of H with
           | match get ?s ?z with _ => _ end = _ => first [rewrite G in H; discriminate|destruct (get s z); [|discriminate]]
           | match ?f ?z with _ => _ end = _ => destruct (f z); [|discriminate]
           end; discriminate.
Qed.

Theorem C68_archive : forall P c, crypto_lawful P -> aconf_ok c -> no_collision (with_wire P) c ->
  forall s, archiving (with_wire P) c s ->
  (a_phase s = PDone -> exists src, open_archive (with_wire P) (a_store s) (ac_kek c) = Ok src) /\
  (forall src, open_archive (with_wire P) (a_store s) (ac_kek c) = Ok src ->
     faithful (with_wire P) c (a_store s) src).
Proof.
  intros P c X K NC s A. pose proof (wire_lawful P X) as L. split.
  - intros Hp. destruct (C23_archive_roundtrip (with_wire P) c L K NC s A Hp) as (src & E & _). eauto.
  - intros src E. now apply (C28_openable_is_complete (with_wire P) c L K NC s A src).
Qed.

Theorem C68_tampering : forall P c, crypto_lawful P -> aconf_ok c ->
  forall s, archiving (with_wire P) c s ->
  forall st src, open_archive (with_wire P) st (ac_kek c) = Ok src ->
  mac_forged (with_wire P) c s st \/ wrap_forged (with_wire P) c s st \/
  (s_ssc src = ac_ssc c /\ forall i,
    (has_stripe src i = true <-> has_data c i) /\
    (forall data, fetch_stripe (with_wire P) st src i (stripe_size c) = Ok data ->
       (has_data c i /\ data = contents c i) \/
       (~ has_data c i /\ data = repeat 0 (stripe_size c)) \/
       collision_found (with_wire P) c st)).
Proof. intros P c X. apply (C24_tampering_detected (with_wire P) c (wire_lawful P X)). Qed.

(** A base64 secret: its text, then white space. *)
Lemma base64_no_space : forall l t t' c, base64 l t -> t = t' ++ [c] -> SecretsModel.ascii_ws c = false.
Proof.
  assert (N : forall v, v < 64 -> SecretsModel.ascii_ws (b64_char v) = false).
  { intros v H. unfold SecretsModel.ascii_ws, b64_char.
    destruct (v <? 26) eqn:E1; [lia|]. destruct (v <? 52) eqn:E2; [lia|]. destruct (v <? 62) eqn:E3; [lia|].
    destruct (v =? 62); reflexivity. }
  intros l t t' c H. revert t' c. induction H; intros t' c0 E.
  - destruct t'; discriminate.
  - repeat match goal with H : stands_for _ _ |- _ => apply stands_inv in H as [-> ?] end.
    destruct t as [|x0 t] using rev_ind.
    + change [b64_char w; b64_char x; b64_char y; b64_char z] with ([b64_char w; b64_char x; b64_char y] ++ [b64_char z]) in E.
      apply app_inj_tail in E as [_ <-]. now apply N.
    + change (b64_char w :: b64_char x :: b64_char y :: b64_char z :: t ++ [x0])
        with ((b64_char w :: b64_char x :: b64_char y :: b64_char z :: t) ++ [x0]) in E.
      apply app_inj_tail in E as [_ <-]. eapply IHbase64; reflexivity.
  - change [cw; cx; cy; 61] with ([cw; cx; cy] ++ [61]) in E. apply app_inj_tail in E as [_ <-]. reflexivity.
  - change [cw; cx; 61; 61] with ([cw; cx; 61] ++ [61]) in E. apply app_inj_tail in E as [_ <-]. reflexivity.
Qed.

Theorem C68_secret : forall w raw b, SecretsModel.w_base64 w = b64_decode ->
  (SecretsModel.decode w raw SecretsModel.Base64 = Ok b <->
   exists t white, raw = t ++ white /\ base64 b t /\ Forall (fun c => In c [9; 10; 12; 13; 32]) white).
Proof.
  intros w raw b W. unfold SecretsModel.decode. rewrite W.
  assert (WS : forall c, SecretsModel.ascii_ws c = true <-> In c [9; 10; 12; 13; 32]).
  { intros c. unfold SecretsModel.ascii_ws. cbn [In]. lia. }
  split.
  - intros H. destruct (SecretsProofs.trim_split raw) as (white & Er & Hw).
    destruct (b64_decode (SecretsModel.trim_ascii_end raw)) as [d|] eqn:E; [|discriminate]. injection H as <-.
    exists (SecretsModel.trim_ascii_end raw), white. split; [exact Er|]. split; [now apply decode_base64|].
    eapply Forall_impl; [|exact Hw]. intros c. apply WS.
  - intros (t & white & -> & Hb & Hw). rewrite SecretsProofs.trim_exact.
    + now rewrite (base64_decode _ _ Hb).
    + eapply Forall_impl; [|exact Hw]. intros c. apply WS.
    + intros t' c. now apply (base64_no_space b t t' c).
Qed.

(** A file is read up to 10929 bytes: what follows white space that reaches so far is
    not looked at, base64 or not. *)
Theorem C68_refuted_secret_tail : exists file b w,
  SecretsModel.w_base64 w = b64_decode /\
  SecretsModel.decode w (firstn (N.to_nat 10929) file) SecretsModel.Base64 = Ok b /\
  (forall t white, file = t ++ white -> Forall (fun c => In c [9; 10; 12; 13; 32]) white -> forall b', ~ base64 b' t).
Proof.
  set (mid := repeat 10 (N.to_nat 10925)).
  exists ((text "AQ==" ++ mid ++ text "!") ++ text "!"), [1],
    (SecretsModel.Build_world (fun _ => None) (fun _ => None) b64_decode (fun _ _ _ => None)).
  split; [reflexivity|]. split; [vm_compute; reflexivity|].
  assert (Bad : b64_decode ((text "AQ==" ++ mid ++ text "!") ++ text "!") = None) by (vm_compute; reflexivity).
  generalize dependent (text "AQ==" ++ mid ++ text "!"). intros pre Bad t white E Hw b' Hb.
  apply base64_decode in Hb. destruct white as [|x white _] using rev_ind.
  - rewrite app_nil_r in E. congruence.
  - rewrite app_assoc in E. change (text "!") with [33] in E. apply app_inj_tail in E as [_ <-].
    apply Forall_app in Hw as [_ Hw]. inversion Hw as [|? ? Hx _]; subst. cbn [In] in Hx. lia.
Qed.

(** Examples *)
Example C68_base64_nonvacuous :
  b64_encode (text "any carnal pleas") = text "YW55IGNhcm5hbCBwbGVhcw==" /\
  b64_decode (text "YW55IGNhcm5hbCBwbGVhcw==") = Some (text "any carnal pleas") /\
  b64_decode (text "YW55IGNhcm5hbCBwbGVhcx==") = None /\ b64_decode (text "YW5") = None /\
  bytes_ok (text "any carnal pleas").
Proof. repeat (split; [vm_compute; reflexivity|]). apply text_bytes. Qed.

Example C68_mapping_nonvacuous :
  map_typed [(1%nat, SZero); (300%nat, SDigest (repeat 3 32))] /\
  map_of_cbor (cbor_of_map [(1%nat, SZero); (300%nat, SDigest (repeat 3 32))]) = Some [(1%nat, SZero); (300%nat, SDigest (repeat 3 32))] /\
  firstn 7 (cbor_of_map [(1%nat, SZero); (300%nat, SDigest (repeat 3 32))]) = [162; 1; 100; 90; 101; 114; 111] /\
  mapping_typed (mk_mapping MAPPING_DOMAIN 1 (repeat 200 512) 77 (repeat 9 32)).
Proof.
  split; [|split; [vm_compute; reflexivity|split; [vm_compute; reflexivity|]]].
  - split; [repeat constructor|]. split; [reflexivity|]. repeat constructor; try reflexivity; apply bytes_ok_repeat; reflexivity.
  - unfold mapping_typed. cbn [mf_domain mf_version mf_ciphertext mf_plaintext_len mf_tag].
    repeat (split; [first [reflexivity|apply bytes_ok_repeat; reflexivity|unfold bytes_ok, byte_ok; repeat constructor]|]).
    reflexivity.
Qed.

Example C68_mapping_any_order_nonvacuous :
  let es := [(7%nat, SZero); (2%nat, SDigest (repeat 1 32)); (7%nat, SDigest (repeat 2 32)); (3%nat, SZero)] in
  Forall entry_typed es /\
  map_of_cbor (cbor_of_map es) = Some [(2%nat, SDigest (repeat 1 32)); (3%nat, SZero); (7%nat, SDigest (repeat 2 32))].
Proof.
  split; [|vm_compute; reflexivity].
  repeat constructor; try reflexivity; apply bytes_ok_repeat; reflexivity.
Qed.

Example C68_metadata_nonvacuous :
  let m := mk_ameta 1 2048 (Some [1; 2; 255]) (CompZstd (2 ^ 32 - 5)) [7; 7] [] in
  ameta_typed m /\
  meta_json m = text "{""format_version"":1,""stripe_sector_count"":2048,""encryption_key"":""AQL/"",""compression"":{""zstd"":{""level"":-5}},""hmac_key"":""Bwc="",""metadata_hmac"":""""}" /\
  meta_json_dec (meta_json m) = Some m.
Proof.
  cbv zeta. split; [|split; vm_compute; reflexivity].
  unfold ameta_typed. cbn [am_version am_ssc am_key am_comp am_hmac_key am_hmac comp_typed].
  repeat (split; [first [reflexivity|split; [unfold bytes_ok, byte_ok; repeat constructor|reflexivity]|unfold bytes_ok, byte_ok; repeat constructor]|]).
  constructor.
Qed.

(** The demo disks of ArchiveExamples are archived in these formats. *)
Example C68_metadata_unambiguous_nonvacuous :
  meta_json_dec (text "{""format_version"":1,""stripe_sector_count"":8,""hmac_key"":""Bwc="",""other"":1,""other"":2}") =
    Some (mk_ameta 1 8 None CompNone [7; 7] []) /\
  meta_json_dec (text "{""format_version"":1,""stripe_sector_count"":8,""hmac_key"":""Bwc="",""hmac_key"":""Bwc=""}") = None.
Proof. split; vm_compute; reflexivity. Qed.

Example C68_archive_nonvacuous : crypto_lawful toy_crypto /\ aconf_ok demo_enc /\ no_collision (with_wire toy_crypto) demo_enc /\
  exists s, archiving (with_wire toy_crypto) demo_enc s /\ a_phase s = PDone.
Proof.
  split; [exact toy_crypto_lawful|]. destruct C23_nonvacuous as (_ & (K & NC & s & E & D) & _).
  split; [exact K|]. split; [exact NC|]. exists s. split; [now exists finish_enc|exact D].
Qed.

Example C68_secret_nonvacuous :
  let w := SecretsModel.Build_world (fun _ => None) (fun _ => None) b64_decode (fun _ _ _ => None) in
  SecretsModel.decode w (text "AQL/" ++ [10; 32]) SecretsModel.Base64 = Ok [1; 2; 255] /\
  is_err (SecretsModel.decode w (text "AQL/ AQ==") SecretsModel.Base64) = true.
Proof. split; vm_compute; reflexivity. Qed.

Print Assumptions C68_base64.
Print Assumptions C68_base64_read.
Print Assumptions C68_mapping.
Print Assumptions C68_mapping_any_order.
Print Assumptions C68_mapping_file.
Print Assumptions C68_metadata.
Print Assumptions C68_metadata_unambiguous.
Print Assumptions C68_archive.
Print Assumptions C68_tampering.
Print Assumptions C68_secret.
Print Assumptions C68_refuted_secret_tail.
