(** Properties C20 (encrypted device), C21 (tweaks of one device), C22 (key
    wrapping). *)
From Coq Require Import List Arith NArith Bool Lia ZifyBool ZifyNat ZifyN.
Import ListNotations.
From Verif Require Import Base BaseFacts ListFacts DiskSpec CryptModel CryptSpec CryptProofs KeyModel.

(** ** C20: for every cipher with [dec x (enc x v) = v], every base contents and
    every sequence of calls respecting the channel contract, whatever the base
    device does (order of sectors, completion order, failures, crashes), what
    the caller sees is a history of an ordinary disk that holds the decryption
    of the base contents; at the end the medium of the base is the encryption
    view of that disk's medium, and no buffer access panicked. *)
Theorem C20_encrypted_device_is_a_disk :
  forall (V : Type) (enc dec : nat -> V -> V) (size : nat),
    (forall x v, dec x (enc x v) = v) ->
    forall (contents : nat -> V) (es : list (cevent V)) (s : cdev V) (tr : list (titem V)),
      calls_ok enc dec size (new_cdev contents) es ->
      crun enc dec size (new_cdev contents) es = Some (s, tr) ->
      c_panic s = false /\
      exists d, disk_behaviour size (fun x => dec x (contents x)) tr d /\
        forall x, cur (d_hist d x) = option_map (dec x) (cur (d_hist (c_base s) x)).
Proof.
  intros V enc dec size H contents es s tr C R.
  destruct (sim_run enc dec size H (fun x => dec x (contents x)) es (new_cdev contents) []
              (new_disk (fun x => dec x (contents x))) s tr) as (p & B & [I S]); auto.
  - apply sim_init.
  - exists []. reflexivity.
  - split; [apply (ci_panic _ I)|]. exists p. split; [exact B|].
    intros x. rewrite (ds_hist _ _ _ S). apply cur_dec.
Qed.

(** What is stored for a completed write is the encryption of the data with the
    sector's own number, and nothing else reaches the base device: a write of
    [plain] at [off] is issued to the base as [enc (off+i) plain_i]. *)
Theorem C20_only_ciphertext_stored :
  forall (V : Type) (enc dec : nat -> V -> V) (size : nat) (s s' : cdev V) n q id off cnt b tr,
    call_ok s (CWrite n q id off cnt b) ->
    cstep enc dec size s (CWrite n q id off cnt b) = Some (s', tr) ->
    exists plain cipher,
      firstn cnt (c_mem s b) = map Some plain /\
      tr = [TIssue n q id (RWrite off plain)] /\
      dstep size (c_base s) (DIssue n q id (RWrite off cipher)) = Some (c_base s', [TIssue n q id (RWrite off cipher)]) /\
      forall i, nth_error cipher i = option_map (enc (off + i)) (nth_error plain i).
Proof.
  intros V enc dec size s s' n q id off cnt b tr (C1 & C2 & C3) H. cbn [cstep] in H.
  destruct (defined (firstn cnt (c_mem s b))) as [plain|] eqn:Ep; [|discriminate].
  apply defined_spec in Ep.
  destruct (crypt_loop_ok enc off cnt 0 (c_mem s b)) as (buf & Eb & Lb & Nb). { lia. }
  rewrite Eb in H.
  destruct (defined (firstn cnt buf)) as [cipher|] eqn:Ec; [|discriminate]. apply defined_spec in Ec.
  destruct (dstep size (c_base s) (DIssue n q id (RWrite off cipher))) as [[d t0]|] eqn:E; [|discriminate].
  injection H as <- <-. exists plain, cipher. split; [exact Ep|]. split; [reflexivity|].
  split.
  - rewrite E. cbn [c_base]. cbn in E. destruct (d_used (c_base s) n); [discriminate|]. now injection E as <- <-.
  - intros i.
    assert (Hc : nth_error (map Some cipher) i = nth_error (firstn cnt buf) i) by now rewrite Ec.
    assert (Hp : nth_error (map Some plain) i = nth_error (firstn cnt (c_mem s b)) i) by now rewrite Ep.
    rewrite nth_error_firstn, nth_error_map in Hc, Hp. rewrite Nb in Hc. cbn [Nat.leb andb] in Hc.
    rewrite Nat.add_0_l in Hc. destruct (i <? cnt).
    + rewrite <- Hp in Hc. destruct (nth_error plain i) as [v|]; cbn in *.
      * destruct (nth_error cipher i); cbn in *; [|discriminate]. now injection Hc as ->.
      * destruct (nth_error cipher i); [discriminate|reflexivity].
    + destruct (nth_error plain i); [discriminate|]. destruct (nth_error cipher i); [discriminate|reflexivity].
Qed.

(** Non-vacuity: two requests in flight at once with a cipher that depends on
    the sector; the read sees the written plaintext, and the base device holds
    something else. *)
Definition ex_enc (x v : nat) : nat := v + 7 * x + 1.
Definition ex_dec (x v : nat) : nat := v - (7 * x + 1).
Definition ex_calls : list (cevent nat) :=
  [CFill 0 [10; 20]; CFill 1 [0; 0];
   CWrite 1 0 5 3 2 0; CRead 2 0 6 2 2 1;
   CBase (DApply 1 1); CBase (DSample 2 0); CBase (DApply 1 0); CDone 1 true;
   CBase (DSample 2 1); CDone 2 true].

Example C20_nonvacuous :
  (forall x v, ex_dec x (ex_enc x v) = v) /\
  calls_ok ex_enc ex_dec 8 (new_cdev (fun x => ex_enc x (100 + x))) ex_calls /\
  exists s, crun ex_enc ex_dec 8 (new_cdev (fun x => ex_enc x (100 + x))) ex_calls = Some (s,
    [TIssue 1 0 5 (RWrite 3 [10; 20]); TIssue 2 0 6 (RRead 2 2); TDone 1 0 5 true [];
     TDone 2 0 6 true [Some 102; Some 10]]) /\
   cur (d_hist (c_base s) 3) = Some (ex_enc 3 10) /\ cur (d_hist (c_base s) 4) = Some (ex_enc 4 20).
Proof.
  split; [intros x v; unfold ex_dec, ex_enc; lia|]. split.
  - apply (calls_okb_sound ex_enc ex_dec 8 3); [intros n _; reflexivity|vm_compute; reflexivity].
  - eexists. split; [vm_compute; reflexivity|]. vm_compute. auto.
Qed.

(** ** C21 (one device) *)

(** Distinct sector numbers have distinct tweaks. *)
Theorem C21_tweaks_distinct : forall x y : N, (x < 2 ^ 64)%N -> (y < 2 ^ 64)%N ->
  tweak x = tweak y -> x = y.
Proof.
  intros x y Hx Hy H. unfold tweak in H. apply app_inv_head in H.
  apply (le_bytes_inj 8); auto.
Qed.

Lemma sector_of_splice : forall buf i j d, (S i) * 512 <= length buf -> (S j) * 512 <= length buf ->
  length d = 512 -> sector_of (splice buf (i * 512) d) j = if i =? j then d else sector_of buf j.
Proof.
  intros buf i j d Hi Hj Hd. unfold sector_of, splice. rewrite Hd.
  assert (L1 : length (firstn (i * 512) buf) = i * 512) by (rewrite firstn_length; lia).
  destruct (Nat.eqb_spec i j) as [<-|Hne].
  - replace (512 * i) with (i * 512) by lia. rewrite skipn_app_exact by exact L1.
    now rewrite firstn_app_exact.
  - destruct (le_lt_dec j i) as [Hle|Hgt].
    + rewrite skipn_app, firstn_app.
      rewrite skipn_firstn_comm, firstn_firstn, firstn_length, skipn_length.
      replace (Nat.min 512 (i * 512 - 512 * j)) with 512 by lia.
      replace (512 - Nat.min (i * 512 - 512 * j) (length buf - 512 * j)) with 0 by lia.
      cbn [firstn]. now rewrite app_nil_r.
    + rewrite skipn_app. rewrite (skipn_all2 (firstn _ _)) by lia. rewrite L1. cbn [app].
      rewrite skipn_app. rewrite (skipn_all2 d) by lia. cbn [app]. rewrite Hd.
      rewrite skipn_skipn. f_equal. f_equal. lia.
Qed.

Lemma xts_loop_ok : forall f start n i buf,
  (forall t v, length v = 512 -> length (f t v) = 512) -> (i + n) * 512 <= length buf ->
  exists buf', xts_loop f start n i buf = Ok buf' /\ length buf' = length buf /\
    (forall j, (S j) * 512 <= length buf -> sector_of buf' j =
      if (i <=? j) && (j <? i + n) then f (tweak (start + N.of_nat j)) (sector_of buf j) else sector_of buf j) /\
    skipn ((i + n) * 512) buf' = skipn ((i + n) * 512) buf.
Proof.
  intros f start. induction n as [|n IH]; intros i buf Hf H; cbn [xts_loop].
  - exists buf. repeat split; auto. intros j Hj. destruct ((i <=? j) && (j <? i + 0)) eqn:E; [lia|reflexivity].
  - unfold SECTOR. rewrite slice_ok by lia. cbn [bindr].
    replace ((i + 1) * 512 - i * 512) with 512 by lia.
    set (d := firstn 512 (skipn (i * 512) buf)).
    assert (Hd : length d = 512) by (unfold d; rewrite firstn_length, skipn_length; lia).
    set (d' := f (tweak (start + N.of_nat i)) d).
    assert (Hd' : length d' = 512) by (unfold d'; now apply Hf).
    assert (HL : length (splice buf (i * 512) d') = length buf) by (apply splice_length; lia).
    destruct (IH (S i) (splice buf (i * 512) d') Hf) as (b' & E & L & S1 & S2). { rewrite HL. lia. }
    exists b'. split; [exact E|]. split; [lia|]. split.
    + intros j Hj. rewrite S1 by (rewrite HL; exact Hj). rewrite sector_of_splice by lia.
      destruct (Nat.eqb_spec i j) as [<-|Hne].
      * replace ((S i <=? i) && (i <? S i + n)) with false by lia.
        replace ((i <=? i) && (i <? i + S n)) with true by lia.
        unfold d', d, sector_of. now replace (512 * i) with (i * 512) by lia.
      * replace ((S i <=? j) && (j <? S i + n)) with ((i <=? j) && (j <? i + S n)) by lia. reflexivity.
    + replace (i + S n) with (S i + n) by lia. rewrite S2. unfold splice.
      rewrite skipn_app, firstn_length.
      rewrite (skipn_all2 (firstn _ _)) by (rewrite firstn_length; lia). cbn [app].
      rewrite skipn_app. rewrite (skipn_all2 d') by lia. cbn [app]. rewrite Hd', skipn_skipn. f_equal. lia.
Qed.

(** Sector [i] of a buffer is processed with the tweak of sector [start + i] and
    the rest of the buffer is untouched; a buffer that is too short panics. *)
Theorem C21_sector_uses_its_own_tweak :
  forall f buf start count,
    (forall t v, length v = 512 -> length (f t v) = 512) ->
    count * 512 <= length buf ->
    exists buf', xts_process f buf start count = Ok buf' /\ length buf' = length buf /\
      (forall i, i < count -> sector_of buf' i = f (tweak (start + N.of_nat i)) (sector_of buf i)) /\
      skipn (count * 512) buf' = skipn (count * 512) buf.
Proof.
  intros f buf start count Hf H. destruct (xts_loop_ok f start count 0 buf Hf H) as (b' & E & L & S1 & S2).
  exists b'. split; [exact E|]. split; [exact L|]. split; [|exact S2].
  intros i Hi. rewrite S1 by lia. now replace ((0 <=? i) && (i <? 0 + count)) with true by lia.
Qed.

Theorem C21_short_buffer_panics : forall f buf start count,
  (forall t v, length v = 512 -> length (f t v) = 512) ->
  length buf < count * 512 -> xts_process f buf start count = Panic.
Proof.
  intros f buf start count Hf. unfold xts_process.
  assert (G : forall n i b, length b = length buf -> i * 512 <= length buf -> length buf < (i + n) * 512 ->
     xts_loop f start n i b = Panic).
  { induction n as [|n IH]; intros i b Hb Hi Hn; [lia|]. cbn [xts_loop]. unfold slice, SECTOR.
    rewrite Hb. destruct (Nat.leb ((i + 1) * 512) (length buf)) eqn:E; rewrite ?andb_false_r; [|reflexivity].
    apply Nat.leb_le in E. replace (Nat.leb (i * 512) ((i + 1) * 512)) with true by lia. cbn [andb bindr].
    apply IH; [|lia|lia]. rewrite splice_length; [exact Hb|]. rewrite Hf; [lia|].
    rewrite firstn_length, skipn_length. lia. }
  intros H. apply G; auto; lia.
Qed.

Lemma buf_ext : forall a b n, length a = length b -> n * 512 <= length a ->
  (forall i, i < n -> sector_of a i = sector_of b i) -> skipn (n * 512) a = skipn (n * 512) b -> a = b.
Proof.
  intros a b n. revert a b. induction n as [|n IH]; intros a b L H S1 S2; [exact S2|].
  rewrite <- (firstn_skipn 512 a), <- (firstn_skipn 512 b). f_equal.
  - specialize (S1 0 ltac:(lia)). unfold sector_of in S1. exact S1.
  - apply IH.
    + rewrite !skipn_length. lia.
    + rewrite skipn_length. lia.
    + intros i Hi. specialize (S1 (S i) ltac:(lia)). unfold sector_of in *. rewrite !skipn_skipn.
      replace (512 * i + 512) with (512 * S i) by lia. exact S1.
    + rewrite !skipn_skipn. replace (n * 512 + 512) with (S n * 512) by lia. exact S2.
Qed.

(** Decrypting what was encrypted at the same sector gives the buffer back. *)
Theorem C21_encrypt_then_decrypt : forall enc dec buf start count,
  tweakable_cipher enc dec -> count * 512 <= length buf ->
  exists c, xts_process enc buf start count = Ok c /\ xts_process dec c start count = Ok buf.
Proof.
  intros enc dec buf start count (H1 & H2 & H3) HL.
  destruct (C21_sector_uses_its_own_tweak enc buf start count H2 HL) as (c & E & L & S1 & S2).
  destruct (C21_sector_uses_its_own_tweak dec c start count H3) as (p & E' & L' & S1' & S2'); [lia|].
  exists c. split; [exact E|]. rewrite E'. f_equal.
  apply (buf_ext _ _ count); [lia|lia| |congruence].
  intros i Hi. rewrite S1', S1 by exact Hi. apply H1.
  unfold sector_of. rewrite firstn_length, skipn_length. lia.
Qed.

(** The sector-level channel of C20 is the byte-level code: with sectors of 512
    bytes, running the channel's loop on sectors is running the byte loop on
    their concatenation. *)
Definition lift_cipher (f : list byte -> list byte -> list byte) (x : nat) (v : list byte) : list byte :=
  if length v =? 512 then f (tweak (N.of_nat x)) v else v.

Lemma lift_cipher_law : forall enc dec, tweakable_cipher enc dec ->
  forall x v, lift_cipher dec x (lift_cipher enc x v) = v.
Proof.
  intros enc dec (H1 & H2 & H3) x v. unfold lift_cipher. destruct (Nat.eqb_spec (length v) 512) as [E|E].
  - rewrite H2 by exact E. cbn [Nat.eqb]. now apply H1.
  - apply Nat.eqb_neq in E. now rewrite E.
Qed.

Lemma concat_sector : forall (l : list (list byte)) i v, Forall (fun v => length v = 512) l ->
  nth_error l i = Some v -> sector_of (concat l) i = v.
Proof.
  induction l as [|a l IH]; intros i v F H; [destruct i; discriminate|]. inversion F as [|? ? Fa Fl]; subst.
  unfold sector_of. destruct i as [|i]; cbn [nth_error concat] in *.
  - injection H as ->. cbn [Nat.mul skipn]. now apply firstn_app_exact.
  - replace (512 * S i) with (512 + 512 * i) by lia. rewrite <- Fa at 2.
    rewrite skipn_app. rewrite (skipn_all2 a) by lia. cbn [app].
    replace (length a + 512 * i - length a) with (512 * i) by lia. now apply IH.
Qed.

Lemma concat_length512 : forall (l : list (list byte)), Forall (fun v => length v = 512) l ->
  length (concat l) = 512 * length l.
Proof.
  induction 1 as [|a l Ha Hl IH]; cbn [concat length]; [lia|]. rewrite app_length, IH, Ha. lia.
Qed.

Theorem C20_channel_loop_is_the_byte_loop : forall f start n (secs : list (list byte)),
  (forall t v, length v = 512 -> length (f t v) = 512) ->
  Forall (fun v => length v = 512) secs -> n <= length secs ->
  exists secs', crypt_loop (lift_cipher f) start n 0 (map Some secs) = Ok (map Some secs') /\
    xts_process f (concat secs) (N.of_nat start) n = Ok (concat secs').
Proof.
  intros f start n secs Hf F Hn.
  destruct (crypt_loop_ok (lift_cipher f) start n 0 (map Some secs)) as (buf & E & L & Nb).
  { rewrite map_length. lia. }
  set (secs' := map (fun i => let v := nth i secs [] in if i <? n then lift_cipher f (start + i) v else v) (seq 0 (length secs))).
  assert (Hn' : forall i, nth_error secs' i = option_map (fun v => if i <? n then lift_cipher f (start + i) v else v) (nth_error secs i)).
  { intros i. unfold secs'. rewrite nth_error_map_seq. destruct (i <? length secs) eqn:Hi.
    - apply Nat.ltb_lt in Hi. rewrite (nth_error_nth' secs [] Hi). reflexivity.
    - apply Nat.ltb_ge in Hi. assert (nth_error secs i = None) as -> by now apply nth_error_None. reflexivity. }
  assert (F' : Forall (fun v => length v = 512) secs').
  { apply Forall_forall. intros v Hv. apply In_nth_error in Hv. destruct Hv as [i Hv]. rewrite Hn' in Hv.
    destruct (nth_error secs i) as [w|] eqn:Ew; [|discriminate]. injection Hv as <-.
    assert (length w = 512) by (rewrite Forall_forall in F; apply F; eapply nth_error_In; eauto).
    destruct (i <? n); [|assumption]. unfold lift_cipher. rewrite H. cbn. now apply Hf. }
  assert (Eb : buf = map Some secs').
  { apply nth_error_ext. intros i. rewrite Nb, !nth_error_map, Hn'. cbn [Nat.leb andb]. rewrite Nat.add_0_l.
    destruct (i <? n); destruct (nth_error secs i); reflexivity. }
  subst buf. exists secs'. split; [exact E|].
  destruct (C21_sector_uses_its_own_tweak f (concat secs) (N.of_nat start) n Hf) as (b' & E' & L' & S1 & S2).
  { rewrite concat_length512 by exact F. lia. }
  rewrite E'. f_equal.
  assert (Ls : length secs' = length secs) by (unfold secs'; rewrite map_length, seq_length; reflexivity).
  destruct (xts_loop_ok f (N.of_nat start) n 0 (concat secs) Hf) as (b2 & E2 & _ & S3 & _).
  { rewrite concat_length512 by exact F. lia. }
  unfold xts_process in E'. rewrite E' in E2. injection E2 as <-.
  apply (buf_ext _ _ (length secs)).
  - rewrite L', !concat_length512 by assumption. lia.
  - rewrite L', concat_length512 by assumption. lia.
  - intros i Hi. rewrite S3 by (rewrite concat_length512 by assumption; lia). cbn [Nat.leb andb]. rewrite Nat.add_0_l.
    destruct (nth_error secs i) as [v|] eqn:Ev; [|apply nth_error_None in Ev; lia].
    rewrite (concat_sector secs i v F Ev).
    assert (Ev' : nth_error secs' i = Some (if i <? n then lift_cipher f (start + i) v else v)) by (rewrite Hn', Ev; reflexivity).
    rewrite (concat_sector secs' i _ F' Ev'). destruct (i <? n); [|reflexivity].
    unfold lift_cipher. assert (length v = 512) as -> by (rewrite Forall_forall in F; apply F; eapply nth_error_In; eauto).
    cbn [Nat.eqb]. f_equal. f_equal. lia.
  - rewrite !skipn_all2; [reflexivity| |]; rewrite ?L', concat_length512 by assumption; lia.
Qed.

Example C21_nonvacuous :
  let f := fun t v => map (fun b => N.lxor b (nth 8 t 0%N)) v in
  tweakable_cipher f f /\
  xts_process f (repeat 5%N 1024) 3 2 = Ok (repeat 6%N 512 ++ repeat 1%N 512).
Proof.
  cbn zeta. split; [split; [|split]|vm_compute; reflexivity].
  - intros t v _. rewrite map_map. rewrite <- (map_id v) at 2. apply map_ext. intros b.
    rewrite N.lxor_assoc, N.lxor_nilpotent. apply N.lxor_0_r.
  - intros t v H. now rewrite map_length.
  - intros t v H. now rewrite map_length.
Qed.

(** ** C22 *)
Section C22.
Variable seal : list byte -> list byte -> list byte -> list byte -> list byte.
Variable open_ : list byte -> list byte -> list byte -> list byte -> option (list byte).
(** The laws of an AEAD: opening a sealed message gives the message back, and
    the tag adds 16 bytes. *)
Definition aead : Prop :=
  (forall k n a p, open_ k n a (seal k n a p) = Some p) /\
  (forall k n a p, length (seal k n a p) = length p + 16).

(** The key-encryption key is usable: no wrapping, or a 32-byte key with
    authentication data. *)
Definition usable (k : kek) : Prop :=
  match k_method k with
  | MNone => True
  | MAes256Gcm => exists key auth, k_key k = Some key /\ k_auth k = Some auth /\ length key = 32
  end.

Lemma gcm_roundtrip : aead -> forall nonce key aad p, length nonce = 12 -> length key = 32 ->
  aes256gcm_encrypt seal nonce key aad p = Ok (nonce ++ seal key nonce aad p) /\
  aes256gcm_decrypt open_ key aad (nonce ++ seal key nonce aad p) = Ok p.
Proof.
  intros [H1 H2] nonce key aad p Hn Hk. unfold aes256gcm_encrypt, aes256gcm_decrypt, new_cipher.
  rewrite Hk. cbn [Nat.eqb bindr]. split; [reflexivity|].
  rewrite app_length, H2, Hn. unfold GCM_NONCE_SIZE, GCM_TAG_SIZE.
  replace (12 + (length p + 16) <? 12 + 16) with false by lia.
  rewrite !slice_ok by (rewrite ?app_length, ?H2; lia). cbn [bindr].
  rewrite skipn_O, firstn_app_exact by lia. rewrite skipn_app_exact by lia.
  rewrite firstn_all2 by (rewrite H2; lia). now rewrite H1.
Qed.

Theorem C22_key_data_roundtrip : aead -> forall k nonce p, usable k -> length nonce = 12 ->
  exists ct, encrypt_key_data seal nonce k p = Ok ct /\ decrypt_key_data open_ k ct = Ok p.
Proof.
  intros A k nonce p U Hn. unfold encrypt_key_data, decrypt_key_data, usable, init_context in *.
  destruct (k_method k).
  - exists p. auto.
  - destruct U as (key & auth & -> & -> & Hk). cbn [bindr fst snd].
    destruct (gcm_roundtrip A nonce key auth p Hn Hk) as [E1 E2]. eauto.
Qed.

Theorem C22_disk_keys_roundtrip : aead -> forall k n1 n2 key1 key2, usable k ->
  length n1 = 12 -> length n2 = 12 -> length key1 = 32 -> length key2 = 32 ->
  exists c1 c2, encrypt_xts_keys seal n1 n2 k key1 key2 = Ok (c1, c2) /\
    decrypt_xts_keys open_ k c1 c2 = Ok (key1, key2).
Proof.
  intros A k n1 n2 key1 key2 U H1 H2 L1 L2.
  unfold encrypt_xts_keys, decrypt_xts_keys, usable, init_context, ensure_32_bytes in *.
  destruct (k_method k).
  - exists key1, key2. rewrite L1, L2. auto.
  - destruct U as (key & auth & -> & -> & Hk). cbn [bindr fst snd].
    destruct (gcm_roundtrip A n1 key auth key1 H1 Hk) as [E1 E2].
    destruct (gcm_roundtrip A n2 key auth key2 H2 Hk) as [E3 E4].
    rewrite E1, E3. cbn [bindr]. eexists. eexists. split; [reflexivity|].
    rewrite E2, E4. cbn [bindr]. rewrite L1, L2. reflexivity.
Qed.

Theorem C22_archive_key_roundtrip : aead -> forall k nonce key1 key2, usable k -> length nonce = 12 ->
  length key1 = 32 -> length key2 = 32 ->
  exists ct, encrypted_key seal nonce k (key1, key2) = Ok ct /\
    from_encrypted_key open_ k ct = Ok (key1, key2).
Proof.
  intros A k nonce key1 key2 U Hn L1 L2. unfold encrypted_key, from_encrypted_key. cbn [fst snd].
  destruct (C22_key_data_roundtrip A k nonce (key1 ++ key2) U Hn) as (ct & E1 & E2).
  exists ct. split; [exact E1|]. rewrite E2. cbn [bindr]. unfold from_combined_key.
  rewrite app_length, L1, L2. cbn [Nat.eqb Nat.add]. now rewrite firstn_app_exact, skipn_app_exact.
Qed.

Lemma gcm_decrypt_total : forall key aad ct, aes256gcm_decrypt open_ key aad ct <> Panic.
Proof.
  intros key aad ct. unfold aes256gcm_decrypt, new_cipher, GCM_NONCE_SIZE, GCM_TAG_SIZE.
  destruct (length key =? 32); cbn [bindr]; [|discriminate].
  destruct (length ct <? 12 + 16) eqn:E; [discriminate|]. apply Nat.ltb_ge in E.
  rewrite !slice_ok by lia. cbn [bindr]. destruct (open_ _ _ _ _); discriminate.
Qed.

Lemma gcm_decrypt_short : forall key aad ct, length ct < 28 -> is_err (aes256gcm_decrypt open_ key aad ct) = true.
Proof.
  intros key aad ct H. unfold aes256gcm_decrypt, new_cipher, GCM_NONCE_SIZE, GCM_TAG_SIZE.
  destruct (length key =? 32); cbn [bindr]; [|reflexivity].
  now replace (length ct <? 12 + 16) with true by lia.
Qed.

(** No input panics, for any primitive. *)
Theorem C22_unwrap_total : forall utf8 k c1 c2,
  decrypt_key_data open_ k c1 <> Panic /\ decrypt_xts_keys open_ k c1 c2 <> Panic /\
  from_encrypted_key open_ k c1 <> Panic /\ decrypt_aws_credential open_ utf8 k c1 <> Panic.
Proof.
  intros utf8 k c1 c2.
  assert (D : forall c, decrypt_key_data open_ k c <> Panic).
  { intros c. unfold decrypt_key_data, init_context. destruct (k_method k); [discriminate|].
    destruct (k_key k); [|discriminate]. destruct (k_auth k); [|discriminate]. apply gcm_decrypt_total. }
  split; [apply D|]. split; [|split].
  - unfold decrypt_xts_keys, init_context, ensure_32_bytes. destruct (k_method k).
    + destruct (length c1 =? 32); [|discriminate]. cbn [bindr]. destruct (length c2 =? 32); discriminate.
    + destruct (k_key k) as [key|]; [|discriminate]. destruct (k_auth k) as [auth|]; [|discriminate]. cbn [bindr fst snd].
      pose proof (gcm_decrypt_total key auth c1). pose proof (gcm_decrypt_total key auth c2).
      destruct (aes256gcm_decrypt open_ key auth c1); try discriminate; [|contradiction]. cbn [bindr].
      destruct (aes256gcm_decrypt open_ key auth c2); try discriminate; [|contradiction]. cbn [bindr].
      destruct (length a =? 32); [|discriminate]. cbn [bindr]. destruct (length a0 =? 32); discriminate.
  - unfold from_encrypted_key, from_combined_key. specialize (D c1).
    destruct (decrypt_key_data open_ k c1); try discriminate; [|contradiction]. cbn [bindr].
    destruct (length a =? 64); discriminate.
  - unfold decrypt_aws_credential. specialize (D c1).
    destruct (decrypt_key_data open_ k c1); try discriminate; [|contradiction]. cbn [bindr].
    destruct (utf8 a); discriminate.
Qed.

(** With wrapping configured, a missing key, missing authentication data, a key
    of the wrong length or a ciphertext shorter than nonce and tag is an
    error. *)
Theorem C22_bad_input_rejected : forall k ct, k_method k = MAes256Gcm ->
  (k_key k = None \/ k_auth k = None \/ (exists key, k_key k = Some key /\ length key <> 32) \/ length ct < 28) ->
  is_err (decrypt_key_data open_ k ct) = true /\ is_err (from_encrypted_key open_ k ct) = true /\
  (forall c2, is_err (decrypt_xts_keys open_ k ct c2) = true).
Proof.
  intros k ct M H.
  assert (D : is_err (decrypt_key_data open_ k ct) = true /\
     (match init_context k with Ok c => is_err (aes256gcm_decrypt open_ (fst c) (snd c) ct) | r => is_err r end = true)).
  { unfold decrypt_key_data. rewrite M. unfold init_context.
    destruct (k_key k) as [key|] eqn:Ek; [|auto]. destruct (k_auth k) as [auth|] eqn:Ea; [|auto].
    cbn [bindr fst snd]. destruct H as [H|[H|[(key' & Hk & Hl)|H]]]; try discriminate.
    - injection Hk as <-. unfold aes256gcm_decrypt, new_cipher. apply Nat.eqb_neq in Hl. rewrite Hl. auto.
    - split; now apply gcm_decrypt_short. }
  destruct D as [D1 D2]. split; [exact D1|]. split.
  - unfold from_encrypted_key. destruct (decrypt_key_data open_ k ct); try discriminate; auto.
  - intros c2. unfold decrypt_xts_keys. rewrite M. destruct (init_context k) as [c|t|]; try discriminate; auto.
    cbn [bindr]. destruct (aes256gcm_decrypt open_ (fst c) (snd c) ct); try discriminate; auto.
Qed.

(** Keys of the wrong length never come out of unwrapping. *)
Theorem C22_unwrapped_lengths : forall k c1 c2 a b,
  (decrypt_xts_keys open_ k c1 c2 = Ok (a, b) -> length a = 32 /\ length b = 32) /\
  (from_encrypted_key open_ k c1 = Ok (a, b) -> length a = 32 /\ length b = 32).
Proof.
  intros k c1 c2 a b. split; intros H.
  - unfold decrypt_xts_keys, ensure_32_bytes in H. destruct (k_method k).
    + destruct (Nat.eqb_spec (length c1) 32) as [E1|]; [|discriminate]. cbn [bindr] in H.
      destruct (Nat.eqb_spec (length c2) 32) as [E2|]; [|discriminate]. cbn [bindr] in H.
      injection H as <- <-. auto.
    + destruct (init_context k) as [c| |]; try discriminate. cbn [bindr] in H.
      destruct (aes256gcm_decrypt open_ (fst c) (snd c) c1) as [p1| |]; try discriminate. cbn [bindr] in H.
      destruct (aes256gcm_decrypt open_ (fst c) (snd c) c2) as [p2| |]; try discriminate. cbn [bindr] in H.
      destruct (Nat.eqb_spec (length p1) 32) as [E1|]; [|discriminate]. cbn [bindr] in H.
      destruct (Nat.eqb_spec (length p2) 32) as [E2|]; [|discriminate]. cbn [bindr] in H.
      injection H as <- <-. auto.
  - unfold from_encrypted_key, from_combined_key in H. destruct (decrypt_key_data open_ k c1) as [d| |]; try discriminate.
    cbn [bindr] in H. destruct (Nat.eqb_spec (length d) 64) as [E|]; [|discriminate]. apply Ok_inj in H.
    apply pair_equal_spec in H. destruct H as [<- <-].
    rewrite firstn_length, skipn_length. lia.
Qed.
End C22.

(** Non-vacuity: a toy AEAD meets the laws, and a usable key exists. *)
Example C22_nonvacuous :
  let seal := fun (k n a p : list N) => p ++ repeat (N.of_nat (length a)) 16 in
  let open_ := fun (k n a c : list N) =>
    if bytes_eqb (skipn (length c - 16) c) (repeat (N.of_nat (length a)) 16)
    then Some (firstn (length c - 16) c) else None in
  aead seal open_ /\
  usable (mk_kek MAes256Gcm (Some (repeat 1%N 32)) (Some [7%N])) /\
  decrypt_key_data open_ (mk_kek MAes256Gcm (Some (repeat 1%N 32)) (Some [7%N])) (repeat 0%N 12 ++ repeat 9%N 20) = Err E_OPEN.
Proof.
  cbn zeta. split; [split|split].
  - intros k n a p. rewrite app_length, repeat_length. replace (length p + 16 - 16) with (length p) by lia.
    rewrite skipn_app_exact by reflexivity. rewrite bytes_eqb_refl. now rewrite firstn_app_exact.
  - intros k n a p. now rewrite app_length, repeat_length.
  - cbn. eauto.
  - vm_compute. reflexivity.
Qed.

Print Assumptions C20_encrypted_device_is_a_disk.
Print Assumptions C20_only_ciphertext_stored.
Print Assumptions C20_channel_loop_is_the_byte_loop.
Print Assumptions C21_sector_uses_its_own_tweak.
Print Assumptions C21_encrypt_then_decrypt.
Print Assumptions C22_key_data_roundtrip.
Print Assumptions C22_bad_input_rejected.
