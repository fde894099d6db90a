(** C76: a legacy volume is served with its own key or not at all. *)
From Coq Require Import String Ascii List Arith NArith Bool Lia.
From Verif Require Import Base BaseFacts KeyModel SecretsModel ConfigModel WireModel WireSpec WireProofs WireProps LegacyModel.
Import ListNotations.
Local Open Scope N_scope.

Lemma bytes_string : forall l, bytes_ok l -> bytes_of (string_of l) = l.
Proof.
  induction 1 as [|b l Hb Hl IH]; [reflexivity|]. cbn. rewrite IH. f_equal.
  apply N_ascii_embedding. exact Hb.
Qed.

Lemma alphabet_bytes : forall c v, stands_for c v -> byte_ok c.
Proof.
  intros c v H. unfold stands_for in H. apply nth_error_In in H.
  assert (F : forallb (fun c => c <? 256) alphabet = true) by reflexivity.
  rewrite forallb_forall in F. apply F in H. apply N.ltb_lt in H. exact H.
Qed.

Lemma base64_bytes : forall l t, base64 l t -> bytes_ok t.
Proof.
  induction 1; unfold bytes_ok; repeat constructor; eauto using alphabet_bytes.
Qed.

Section C76.
Variable seal : list byte -> list byte -> list byte -> list byte -> list byte.
Variable open_ : list byte -> list byte -> list byte -> list byte -> option (list byte).
Variable w : world.
Hypothesis base64_decoder : w_base64 w = b64_decode.

(** The key a configuration gives the disk, as block devices are built from it
    (backends/common/mod.rs): [None] for a disk that is not encrypted. *)
Definition disk_key (c : config) : option (option (list byte)) :=
  option_map (fun name => lookup name (k_secrets c)) (k_encryption c).

Lemma inline_secret : forall key, bytes_ok key -> List.length key = 64%nat ->
  resolve_secrets w [(LEGACY_XTS_KEY_ID,
    {| sd_source := SInline (string_of (b64_encode key)); sd_encoding := Base64; sd_kek := None |})]
    legacy_danger_zone = Ok [(LEGACY_XTS_KEY_ID, key)].
Proof.
  intros key HB HL. pose proof (encode_base64 key HB) as HE.
  assert (D : decode w (bytes_of (string_of (b64_encode key))) Base64 = Ok key).
  { apply C68_secret; [exact base64_decoder|]. exists (b64_encode key), [].
    rewrite app_nil_r. split; [apply bytes_string, (base64_bytes key), HE|]. auto. }
  unfold resolve_secrets, loop, pass, maybe_resolve_secret. cbn.
  cbn in D. rewrite D. cbn. unfold validate_secret_length. rewrite HL. reflexivity.
Qed.

Lemma load_is : forall o kek c tw, load_legacy_config open_ w o kek = Ok (c, tw) ->
  match lo_encryption_key o with
  | Some wrapped => exists key secrets,
      unwrap_xts_key open_ wrapped (match kek with Some k => k | None => default_kek end) = Ok key /\
      resolve_secrets w [(LEGACY_XTS_KEY_ID,
        {| sd_source := SInline (string_of (b64_encode key)); sd_encoding := Base64; sd_kek := None |})]
        legacy_danger_zone = Ok secrets /\
      k_encryption c = Some LEGACY_XTS_KEY_ID /\ k_secrets c = secrets
  | None => k_encryption c = None /\ k_secrets c = []
  end.
Proof.
  intros o kek c tw H. unfold load_legacy_config in H.
  destruct (lo_encryption_key o) as [wr|]; cbn [bindr] in H.
  - destruct (unwrap_xts_key _ wr _) as [key|?|]; cbn [bindr] in H; try discriminate.
    destruct (resolve_secrets _ _ _) as [s|?|] eqn:E; cbn [bindr] in H; try discriminate.
    injection H as <- _. exists key, s. auto.
  - injection H as <- _. auto.
Qed.

(** The right key-encryption key gives the volume's keys, in their order. *)
Theorem C76_own_key : forall o K iv auth k1 k2,
  (forall k n a p, open_ k n a (seal k n a p) = Some p) ->
  List.length K = 32%nat -> List.length iv = 12%nat ->
  List.length k1 = 32%nat -> List.length k2 = 32%nat -> bytes_ok k1 -> bytes_ok k2 ->
  let aad := match auth with Some a => a | None => [] end in
  lo_encryption_key o = Some (seal K iv aad k1, seal K iv aad k2) ->
  exists c, load_legacy_config open_ w o (Some (mk_legacy_kek LAes256Gcm (Some K) (Some iv) auth)) =
      Ok (c, lo_track_written o) /\
    disk_key c = Some (Some (k1 ++ k2)) /\
    d_data_path (k_device c) = lo_path o /\ d_metadata_path (k_device c) = lo_metadata_path o /\
    k_source c = option_map SrcRaw (lo_image_path o).
Proof.
  intros o K iv auth k1 k2 HO LK LI L1 L2 B1 B2 aad HE.
  unfold load_legacy_config. rewrite HE. unfold unwrap_xts_key. cbn [lk_method lk_key lk_iv lk_auth fst snd].
  fold aad. unfold required, new_cipher, decrypt_key, into_key. cbn [bindr].
  rewrite LK, LI. cbn [Nat.eqb negb bindr]. rewrite !HO, L1, L2. cbn [Nat.eqb bindr].
  rewrite inline_secret; [|now apply Forall_app|rewrite app_length, L1, L2; reflexivity].
  cbn [bindr]. eexists. split; [reflexivity|].
  repeat split.
Qed.

(** Keys stored unwrapped (no key-encryption key was used). *)
Theorem C76_plain_key : forall o k1 k2,
  List.length k1 = 32%nat -> List.length k2 = 32%nat -> bytes_ok k1 -> bytes_ok k2 ->
  lo_encryption_key o = Some (k1, k2) ->
  exists c, load_legacy_config open_ w o None = Ok (c, lo_track_written o) /\
    disk_key c = Some (Some (k1 ++ k2)).
Proof.
  intros o k1 k2 L1 L2 B1 B2 HE. unfold load_legacy_config. rewrite HE.
  unfold unwrap_xts_key, default_kek, into_key. cbn [lk_method fst snd]. rewrite L1, L2. cbn [Nat.eqb bindr].
  rewrite inline_secret; [|now apply Forall_app|rewrite app_length, L1, L2; reflexivity].
  cbn [bindr]. eexists. split; [reflexivity|]. reflexivity.
Qed.

(** An encrypted volume is never read as if it were not, and the other way round. *)
Theorem C76_encrypted : forall o kek c tw, load_legacy_config open_ w o kek = Ok (c, tw) ->
  (disk_key c = None <-> lo_encryption_key o = None).
Proof.
  intros o kek c tw H. apply load_is in H. unfold disk_key.
  destruct (lo_encryption_key o).
  - destruct H as (key & s & _ & _ & E & _). rewrite E. split; discriminate.
  - destruct H as [-> _]. split; reflexivity.
Qed.

(** With any key-encryption key and any stored keys, altered or not: when the volume is
    accepted, its key is the two halves that, sealed under that key-encryption key, are the
    stored ones.  (The cipher is assumed to open nothing else than what it seals.) *)
Theorem C76_only_own_key : forall o kek c tw w1 w2,
  (forall k n a x p, open_ k n a x = Some p -> x = seal k n a p) ->
  (forall k n a x p, bytes_ok x -> open_ k n a x = Some p -> bytes_ok p) ->
  bytes_ok w1 -> bytes_ok w2 ->
  lo_encryption_key o = Some (w1, w2) ->
  load_legacy_config open_ w o (Some kek) = Ok (c, tw) ->
  exists k1 k2, disk_key c = Some (Some (k1 ++ k2)) /\
    List.length k1 = 32%nat /\ List.length k2 = 32%nat /\
    match lk_method kek with
    | LNone => w1 = k1 /\ w2 = k2
    | LAes256Gcm => exists K iv, lk_key kek = Some K /\ lk_iv kek = Some iv /\
        List.length K = 32%nat /\ List.length iv = 12%nat /\
        let aad := match lk_auth kek with Some a => a | None => [] end in
        w1 = seal K iv aad k1 /\ w2 = seal K iv aad k2
    end.
Proof.
  intros o kek c tw w1 w2 HS HB B1 B2 HE H. apply load_is in H. rewrite HE in H.
  destruct H as (key & s & HU & HR & E1 & E2). unfold disk_key. rewrite E1, E2. cbn [option_map].
  assert (X : exists k1 k2, key = k1 ++ k2 /\ List.length k1 = 32%nat /\ List.length k2 = 32%nat /\
    bytes_ok k1 /\ bytes_ok k2 /\
    match lk_method kek with
    | LNone => w1 = k1 /\ w2 = k2
    | LAes256Gcm => exists K iv, lk_key kek = Some K /\ lk_iv kek = Some iv /\
        List.length K = 32%nat /\ List.length iv = 12%nat /\
        let aad := match lk_auth kek with Some a => a | None => [] end in
        w1 = seal K iv aad k1 /\ w2 = seal K iv aad k2
    end).
  { unfold unwrap_xts_key in HU. cbn [fst snd] in HU. destruct (lk_method kek).
    - unfold into_key in HU. destruct (Nat.eqb_spec (List.length w1) 32); cbn [bindr] in HU; [|discriminate].
      destruct (Nat.eqb_spec (List.length w2) 32); cbn [bindr] in HU; [|discriminate].
      injection HU as <-. exists w1, w2. repeat split; auto.
    - destruct (lk_key kek) as [K|]; cbn [required bindr] in HU; [|discriminate].
      destruct (lk_iv kek) as [iv|]; cbn [required bindr] in HU; [|discriminate].
      unfold new_cipher in HU. destruct (Nat.eqb_spec (List.length K) 32); cbn [bindr] in HU; [|discriminate].
      destruct (Nat.eqb_spec (List.length iv) 12); cbn [negb bindr] in HU; [|discriminate].
      set (aad := match lk_auth kek with Some a => a | None => [] end) in *.
      unfold decrypt_key in HU.
      destruct (open_ K iv aad w1) as [k1|] eqn:O1; cbn [bindr] in HU; [|discriminate].
      unfold into_key in HU at 1. destruct (Nat.eqb_spec (List.length k1) 32); cbn [bindr] in HU; [|discriminate].
      destruct (open_ K iv aad w2) as [k2|] eqn:O2; cbn [bindr] in HU; [|discriminate].
      unfold into_key in HU. destruct (Nat.eqb_spec (List.length k2) 32); cbn [bindr] in HU; [|discriminate].
      injection HU as <-.
      exists k1, k2. repeat split; eauto. exists K, iv. repeat split; auto. }
  destruct X as (k1 & k2 & -> & L1 & L2 & C1 & C2 & M).
  rewrite inline_secret in HR; [|now apply Forall_app|rewrite app_length, L1, L2; reflexivity].
  injection HR as <-. exists k1, k2. auto.
Qed.

(** Wrapped keys without the key-encryption key: refused.  (A sealed 32-byte key is 48
    bytes long.) *)
Theorem C76_kek_needed : forall o K iv aad k1 w2,
  (forall k n a p, List.length (seal k n a p) = (List.length p + 16)%nat) ->
  List.length k1 = 32%nat ->
  lo_encryption_key o = Some (seal K iv aad k1, w2) ->
  is_err (load_legacy_config open_ w o None) = true.
Proof.
  intros o K iv aad k1 w2 HS L1 HE. unfold load_legacy_config. rewrite HE.
  unfold unwrap_xts_key, default_kek, into_key. cbn [lk_method fst snd]. rewrite HS, L1. reflexivity.
Qed.

(** What is accepted would be accepted as a configuration of the current format. *)
Theorem C76_valid : forall o kek c tw,
  (forall k n a x p, bytes_ok x -> open_ k n a x = Some p -> bytes_ok p) ->
  (forall w1 w2, lo_encryption_key o = Some (w1, w2) -> bytes_ok w1 /\ bytes_ok w2) ->
  load_legacy_config open_ w o kek = Ok (c, tw) ->
  validate_tuning (k_tuning c) = Ok tt /\
  match k_source c with Some s => validate_source s (k_dz c) (k_secrets c) = Ok tt | None => True end /\
  match k_encryption c with
  | Some x => validate_encryption x (k_secrets c) = Ok tt
  | None => dz_enabled (k_dz c) && dz_unencrypted_disk (k_dz c) = true
  end.
Proof.
  intros o kek c tw HB HW H. pose proof (load_is _ _ _ _ H) as HL.
  unfold load_legacy_config in H.
  assert (HT : k_tuning c = legacy_tuning /\ k_dz c = legacy_danger_zone /\
               k_source c = option_map SrcRaw (lo_image_path o)).
  { destruct (match lo_encryption_key o with Some _ => _ | None => _ end) as [[e s]|?|]; cbn [bindr] in H; try discriminate.
    injection H as <- _. auto. }
  destruct HT as (-> & -> & ->). split; [reflexivity|]. split; [destruct (lo_image_path o); cbn; auto|].
  destruct (lo_encryption_key o) as [[w1 w2]|].
  - destruct HL as (key & s & HU & HR & E1 & E2). rewrite E1, E2.
    assert (X : bytes_ok key /\ List.length key = 64%nat).
    { destruct (HW w1 w2 eq_refl) as [B1 B2].
      unfold unwrap_xts_key in HU. cbn [fst snd] in HU. destruct (lk_method _).
      - unfold into_key in HU. destruct (Nat.eqb_spec (List.length w1) 32) as [L1|]; cbn [bindr] in HU; [|discriminate].
        destruct (Nat.eqb_spec (List.length w2) 32) as [L2|]; cbn [bindr] in HU; [|discriminate].
        injection HU as <-. split; [now apply Forall_app|]. now rewrite app_length, L1, L2.
      - destruct (lk_key _) as [K|]; cbn [required bindr] in HU; [|discriminate].
        destruct (lk_iv _) as [iv|]; cbn [required bindr] in HU; [|discriminate].
        unfold new_cipher in HU. destruct (Nat.eqb_spec (List.length K) 32); cbn [bindr] in HU; [|discriminate].
        destruct (Nat.eqb_spec (List.length iv) 12); cbn [negb bindr] in HU; [|discriminate].
        unfold decrypt_key in HU.
        destruct (open_ K iv _ w1) as [k1|] eqn:O1; cbn [bindr] in HU; [|discriminate].
        unfold into_key in HU at 1. destruct (Nat.eqb_spec (List.length k1) 32) as [L1|]; cbn [bindr] in HU; [|discriminate].
        destruct (open_ K iv _ w2) as [k2|] eqn:O2; cbn [bindr] in HU; [|discriminate].
        unfold into_key in HU. destruct (Nat.eqb_spec (List.length k2) 32) as [L2|]; cbn [bindr] in HU; [|discriminate].
        injection HU as <-. apply HB in O1; [|exact B1]. apply HB in O2; [|exact B2]. split; [now apply Forall_app|]. now rewrite app_length, L1, L2. }
    destruct X as [X1 X2]. rewrite (inline_secret key X1 X2) in HR. injection HR as <-.
    unfold validate_encryption. cbn [lookup String.eqb]. rewrite String.eqb_refl, X2. reflexivity.
  - destruct HL as [-> _]. reflexivity.
Qed.
End C76.

(** A cipher with these laws, a volume and its key. *)
Definition tag (k n a : list byte) : list byte := firstn 16 (k ++ repeat 0 16).
Definition toy_seal (k n a p : list byte) : list byte := tag k n a ++ p.
Definition toy_open (k n a x : list byte) : option (list byte) :=
  if bytes_eqb (firstn 16 x) (tag k n a) then Some (skipn 16 x) else None.

Lemma tag_length : forall k n a, List.length (tag k n a) = 16%nat.
Proof. intros k n a. unfold tag. rewrite firstn_length, app_length, repeat_length. lia. Qed.

Example toy_laws :
  (forall k n a p, toy_open k n a (toy_seal k n a p) = Some p) /\
  (forall k n a p, List.length (toy_seal k n a p) = (List.length p + 16)%nat) /\
  (forall k n a x p, toy_open k n a x = Some p -> x = toy_seal k n a p) /\
  (forall k n a x p, bytes_ok x -> toy_open k n a x = Some p -> bytes_ok p).
Proof.
  unfold toy_open, toy_seal. repeat split.
  - intros k n a p. pose proof (tag_length k n a) as L.
    assert (F : firstn 16 (tag k n a ++ p) = tag k n a).
    { rewrite <- L. apply firstn_app_exact. reflexivity. }
    assert (S : skipn 16 (tag k n a ++ p) = p).
    { rewrite <- L. apply skipn_app_exact. reflexivity. }
    rewrite F, S. assert (E : bytes_eqb (tag k n a) (tag k n a) = true) by now apply bytes_eqb_spec.
    now rewrite E.
  - intros k n a p. rewrite app_length, tag_length. lia.
  - intros k n a x p H. destruct (bytes_eqb _ _) eqn:E; [|discriminate]. injection H as <-.
    apply bytes_eqb_spec in E. rewrite <- E. symmetry. apply firstn_skipn.
  - intros k n a x p B H. destruct (bytes_eqb _ _); [|discriminate]. injection H as <-.
    rewrite <- (firstn_skipn 16 x) in B. apply Forall_app in B. apply B.
Qed.

Definition toy_world : world := Build_world (fun _ => None) (fun _ => None) b64_decode (fun _ _ _ => None).
Definition toy_K := repeat 1 32.
Definition toy_iv := repeat 2 12.
Definition toy_volume : legacy_options :=
  mk_legacy_options "disk" (Some "image"%string) (Some "meta"%string) true
    (Some (toy_seal toy_K toy_iv [] (repeat 7 32), toy_seal toy_K toy_iv [] (repeat 8 32))).

Example C76_nonvacuous :
  (exists c, load_legacy_config toy_open toy_world toy_volume
       (Some (mk_legacy_kek LAes256Gcm (Some toy_K) (Some toy_iv) None)) = Ok (c, true) /\
     disk_key c = Some (Some (repeat 7 32 ++ repeat 8 32))) /\
  is_err (load_legacy_config toy_open toy_world toy_volume None) = true /\
  is_err (load_legacy_config toy_open toy_world toy_volume
       (Some (mk_legacy_kek LAes256Gcm (Some (repeat 3 32)) (Some toy_iv) None))) = true.
Proof.
  split; [eexists; split; vm_compute; reflexivity|]. split; vm_compute; reflexivity.
Qed.

Print Assumptions C76_own_key.
Print Assumptions C76_plain_key.
Print Assumptions C76_encrypted.
Print Assumptions C76_only_own_key.
Print Assumptions C76_kek_needed.
Print Assumptions C76_valid.
