(** Properties C01-C05: the metadata format. *)
From Coq Require Import List Arith NArith ZArith Bool Lia ZifyBool ZifyNat ZifyN.
From Verif Require Import Base BaseFacts MetadataModel CrcProofs MetadataProofs MetadataSpec MetadataProofs2.
Import ListNotations.
Local Open Scope nat_scope.
Ltac Zify.zify_post_hook ::= Z.div_mod_to_equations.

(** C01.  Saving any metadata with fewer than 2^32 stripes and shift <= 17 into
    any buffer that is large enough and sector aligned succeeds, keeps the size
    and the bytes behind the metadata, and loading returns the same metadata. *)
Theorem C01_metadata_roundtrip : forall shift hs buf,
  (shift <= 17)%N -> (N.of_nat (length hs) < 2 ^ 32)%N ->
  length buf mod 512 = 0 ->
  512 * (1 + (length hs + 507) / 508) <= length buf ->
  exists buf',
    write_to_buf (current_metadata shift hs) buf = Ok buf' /\
    length buf' = length buf /\
    (forall p, 512 * (1 + (length hs + 507) / 508) <= p -> nth p buf' 0%N = nth p buf 0%N) /\
    from_bytes buf' = Ok (current_metadata shift hs).
Proof.
  intros shift hs buf Hs Hh Hm Hl.
  assert (Hsz : metadata_size (current_metadata shift hs) = 512 * (1 + (length hs + 507) / 508)).
  { unfold metadata_size, stripe_header_sector_count, div_ceil, current_metadata. cbn [md_headers].
    consts. change (508 - 1) with 507. lia. }
  destruct (roundtrip (current_metadata shift hs) buf) as (b & H1 & H2 & H3 & H4).
  - repeat split; auto.
  - lia.
  - exact Hm.
  - exists b. repeat split; auto. intros p Hp.
    pose proof (f_equal (fun l => nth (p - 512 * (1 + (length hs + 507) / 508)) l 0%N) H3) as E.
    cbn beta in E. rewrite !nth_skipn, Hsz in E.
    replace (512 * (1 + (length hs + 507) / 508) + (p - 512 * (1 + (length hs + 507) / 508))) with p in E by lia.
    exact E.
Qed.

(** A buffer that is too small, or too many stripes, is refused, never truncated. *)
Theorem C01_metadata_too_small : forall shift hs buf,
  length buf < 512 * (1 + (length hs + 507) / 508) \/ (2 ^ 32 <= N.of_nat (length hs))%N ->
  is_err (write_to_buf (current_metadata shift hs) buf) = true.
Proof.
  intros shift hs buf H. unfold write_to_buf.
  assert (Hsz : metadata_size (current_metadata shift hs) = 512 * (1 + (length hs + 507) / 508)).
  { unfold metadata_size, stripe_header_sector_count, div_ceil, current_metadata. cbn [md_headers].
    consts. change (508 - 1) with 507. lia. }
  rewrite Hsz. cbn [md_headers current_metadata].
  destruct (length buf <? 512 * (1 + (length hs + 507) / 508)) eqn:E; [reflexivity|].
  apply Nat.ltb_ge in E. destruct H as [H|H]; [lia|].
  replace (N.of_nat (length hs) <? 2 ^ 32)%N with false by (symmetry; apply N.ltb_ge; exact H). reflexivity.
Qed.

Definition get {A} (r : res A) (d : A) : A := match r with Ok x => x | _ => d end.

Example C01_nonvacuous :
  let buf' := get (write_to_buf (current_metadata 11 (repeat 5%N 509)) (repeat 7%N 2048)) [] in
  from_bytes buf' = Ok (current_metadata 11 (repeat 5%N 509)) /\ nth 2047 buf' 0%N = 7%N.
Proof. vm_compute. split; reflexivity. Qed.

(** C02.  Loading never panics; it succeeds exactly on valid images and returns
    what the image says. *)
Theorem C02_load_total : forall buf, from_bytes buf <> Panic.
Proof. intros buf H. pose proof (from_bytes_total buf) as P. rewrite H in P. discriminate. Qed.

Theorem C02_load_accepts_exactly_valid : forall buf m, bytes_ok buf ->
  (from_bytes buf = Ok m <->
   exists shift hs, valid_image buf shift hs /\ m = current_metadata shift hs).
Proof. exact from_bytes_iff. Qed.

(** The CRC of the model is the standard CRC-32 (check value of "123456789"). *)
Example crc32_check : crc32 [49; 50; 51; 52; 53; 54; 55; 56; 57]%N = 3421780262%N. (* 0xCBF43926 *)
Proof. vm_compute. reflexivity. Qed.

Example C02_nonvacuous : exists buf, bytes_ok buf /\ length buf = 1536 /\
  exists shift hs, valid_image buf shift hs /\ length hs = 3.
Proof.
  destruct (roundtrip (current_metadata 11 [4; 5; 6]%N) (repeat 0%N 1536)) as (b & H1 & H2 & _ & H4);
    [repeat split; cbn; lia|vm_compute; lia|reflexivity|].
  exists b. assert (Hb : bytes_ok b).
  { assert (E : Ok b = Ok (match write_to_buf (current_metadata 11 [4; 5; 6]%N) (repeat 0%N 1536) with
                  Ok x => x | _ => [] end)) by (rewrite H1; reflexivity).
    apply Ok_inj in E. subst b. unfold bytes_ok. apply Forall_forall. intros x Hx.
    assert (F : forallb (fun b => (b <? 256)%N)
       (match write_to_buf (current_metadata 11 [4; 5; 6]%N) (repeat 0%N 1536) with Ok x => x | _ => [] end) = true)
      by (vm_compute; reflexivity).
    rewrite forallb_forall in F. apply N.ltb_lt. now apply F. }
  split; [exact Hb|]. split; [rewrite H2; reflexivity|].
  apply from_bytes_iff in H4; [|exact Hb]. destruct H4 as (s & h & V & E).
  exists s, h. split; [exact V|]. unfold current_metadata in E. injection E as _ <-. reflexivity.
Qed.

(** C03.  Take any image that loads, and damage one sector that is in use by any
    non-zero error pattern confined to 32 consecutive bits (bit [k] counted from
    the first bit of the sector): loading the damaged image fails. *)
Theorem C03_burst_detected : forall buf shift hs s buf' burst k,
  bytes_ok buf -> bytes_ok buf' ->
  from_bytes buf = Ok (current_metadata shift hs) ->
  sector_in_use (length hs) s ->
  length buf' = length buf ->
  (forall p, p < 512 * s \/ 512 * (s + 1) <= p -> nth p buf' 0%N = nth p buf 0%N) ->
  le_val (bytes_at buf' (512 * s) 512) =
    N.lxor (le_val (bytes_at buf (512 * s) 512)) (N.shiftl burst (N.of_nat k)) ->
  (0 < burst < 2 ^ 32)%N -> k < 512 * 8 ->
  exists t, from_bytes buf' = Err t.
Proof.
  intros buf shift hs s buf' burst k Hb Hb' Hok Hs Hl Hsame Hx Hbu Hk.
  apply in_use_iff in Hs.
  assert (Hcnt : stripe_header_sector_count (current_metadata shift hs) = div_ceil (length hs) 508) by reflexivity.
  pose proof Hok as Hok2. apply from_bytes_ok_inv in Hok2. destruct Hok2 as [Hi Hm].
  pose proof (decoded_headers_length buf Hi) as [HL HD].
  assert (HM : length buf = 512 * (length buf / 512)).
  { unfold image_ok in Hi. rewrite !andb_true_iff in Hi. apply mod_div_512. apply Nat.eqb_eq. tauto. }
  assert (Hhs : length hs = N.to_nat (header_count buf)).
  { unfold current_metadata in Hm. injection Hm as _ Hh. rewrite Hh. exact HL. }
  rewrite <- Hhs in HD.
  assert (Hsec : forall b, length b = length buf -> sector_at b s = bytes_at b (512 * s) 512).
  { intros b Hbl. rewrite bytes_at_slice by lia. unfold sector_at. consts. f_equal. f_equal. lia. }
  assert (E : is_err (from_bytes buf') = true).
  { apply (burst_rejected buf (current_metadata shift hs) s buf' burst k); auto.
    - intros j Hj. apply (nth_ext _ _ 0%N 0%N).
      + unfold sector_at. rewrite !firstn_length, !skipn_length, Hl. reflexivity.
      + intros q Hq. unfold sector_at in *. rewrite firstn_length in Hq. consts.
        rewrite !nth_firstn by lia. rewrite !nth_skipn. apply Hsame. lia.
    - rewrite !Hsec by auto. rewrite Hx. now rewrite N.shiftl_mul_pow2. }
  destruct (from_bytes buf'); try discriminate. eauto.
Qed.

Definition C03_buf : list byte := get (write_to_buf (current_metadata 11 [4; 5; 6]%N) (repeat 0%N 1024)) [].
Definition C03_buf' : list byte :=
  firstn 512 C03_buf ++ le_bytes 512 (N.lxor (le_val (bytes_at C03_buf 512 512)) (N.shiftl 2147483649 4000)).
Example C03_nonvacuous :
  from_bytes C03_buf = Ok (current_metadata 11 [4; 5; 6]%N) /\ sector_in_use 3 1 /\
  length C03_buf' = length C03_buf /\
  le_val (bytes_at C03_buf' 512 512)
    = N.lxor (le_val (bytes_at C03_buf 512 512)) (N.shiftl 2147483649 4000) /\
  from_bytes C03_buf' = Err 7.
Proof.
  split; [vm_compute; reflexivity|].
  split; [right; exists 2; split; [lia|reflexivity]|].
  split; [vm_compute; reflexivity|]. split; vm_compute; reflexivity.
Qed.

(** C04.  The model's addressing puts stripe [i] in the sector and at the byte
    the format says, two stripes never share a location, every location lies in
    the metadata area, and the sector image the background worker writes for an
    update of stripe [i] turns the saved image of the old metadata into the saved
    image of the metadata with just that header changed (also when other bytes
    follow). *)
Theorem C04_addressing : forall i,
  stripe_id_to_sector i * 512 + i mod 508 = header_pos i /\
  stripe_id_to_sector i = 1 + stripe_id_to_group i /\
  (forall j, header_pos i = header_pos j -> i = j) /\
  (forall n, i < n -> 512 <= header_pos i < 512 * (1 + (n + 507) / 508)).
Proof.
  intros i. repeat split.
  - unfold stripe_id_to_sector, header_pos. consts. lia.
  - unfold stripe_id_to_sector, stripe_id_to_group. lia.
  - intros j. apply header_pos_inj.
  - unfold header_pos. lia.
  - unfold header_pos. pose proof (Nat.mod_upper_bound i 508).
    assert (i / 508 < (n + 507) / 508) by lia. lia.
Qed.

Theorem C04_update_is_local : forall shift hs i h buf disk,
  (shift <= 17)%N -> (N.of_nat (length hs) < 2 ^ 32)%N -> length buf mod 512 = 0 ->
  i < length hs ->
  write_to_buf (current_metadata shift hs) buf = Ok disk ->
  exists sec,
    flusher_sector (set_nth i h hs) i = Ok sec /\ length sec = 512 /\
    from_bytes (splice disk (stripe_id_to_sector i * 512) sec)
      = Ok (current_metadata shift (set_nth i h hs)).
Proof.
  intros shift hs i h buf disk Hs Hh Hm Hi Hw.
  assert (Hwf : meta_wf (current_metadata shift hs)) by (repeat split; auto).
  set (m' := current_metadata shift (set_nth i h hs)).
  assert (Hwf' : meta_wf m') by (repeat split; auto; cbn; rewrite set_nth_length; exact Hh).
  assert (Hsz : metadata_size (current_metadata shift hs) <= length buf).
  { unfold write_to_buf in Hw. destruct (length buf <? metadata_size _) eqn:E; [discriminate|].
    apply Nat.ltb_ge in E. exact E. }
  rewrite write_to_buf_ok in Hw by assumption. apply Ok_inj in Hw. subst disk.
  exists (sector_image (chunk (set_nth i h hs) (i / 508))).
  split; [apply flusher_sector_ok; rewrite set_nth_length; exact Hi|].
  split; [apply sector_image_length, chunk_length|].
  assert (E : encoded m' = splice (encoded (current_metadata shift hs)) (stripe_id_to_sector i * 512)
                 (sector_image (chunk (set_nth i h hs) (i / 508))))
    by exact (encoded_update (current_metadata shift hs) i h Hwf Hi).
  pose proof (encoded_length _ Hwf) as HL.
  assert (Hpos : stripe_id_to_sector i * 512 + 512 <= length (encoded (current_metadata shift hs))).
  { rewrite HL. unfold metadata_size, stripe_header_sector_count, div_ceil, stripe_id_to_sector.
    cbn [md_headers current_metadata]. consts. lia. }
  set (sec := sector_image (chunk (set_nth i h hs) (i / 508))) in *.
  assert (Hsec : length sec = 512) by (apply sector_image_length, chunk_length).
  assert (Hsp : forall a b : list byte, stripe_id_to_sector i * 512 + 512 <= length a ->
     splice (a ++ b) (stripe_id_to_sector i * 512) sec = splice a (stripe_id_to_sector i * 512) sec ++ b).
  { intros a b Ha. unfold splice. rewrite firstn_app, skipn_app, Hsec.
    replace (stripe_id_to_sector i * 512 - length a) with 0 by lia.
    replace (stripe_id_to_sector i * 512 + 512 - length a) with 0 by lia.
    rewrite firstn_O, skipn_O, app_nil_r, <- !app_assoc. reflexivity. }
  rewrite Hsp by exact Hpos. rewrite <- E.
  assert (Hr : length (skipn (metadata_size (current_metadata shift hs)) buf) mod 512 = 0).
  { rewrite skipn_length. unfold metadata_size in *. consts.
    set (q := stripe_header_sector_count _) in *. lia. }
  pose proof (from_bytes_exact (encoded m' ++ skipn (metadata_size (current_metadata shift hs)) buf)) as [F _].
  rewrite F by (apply image_ok_encoded; assumption).
  rewrite decoded_encoded by assumption. reflexivity.
Qed.

Example C04_nonvacuous :
  let disk := get (write_to_buf (current_metadata 11 (repeat 4%N 1100)) (repeat 9%N 2560)) [] in
  let sec := get (flusher_sector (set_nth 508 5%N (repeat 4%N 1100)) 508) [] in
  from_bytes (splice disk (stripe_id_to_sector 508 * 512) sec)
    = Ok (current_metadata 11 (set_nth 508 5%N (repeat 4%N 1100))).
Proof. vm_compute. reflexivity. Qed.

(** C05.  Fresh metadata: one header per device stripe; header bits say exactly
    whether the source has the stripe; nothing fetched, nothing written. *)
Theorem C05_fresh_from_source : forall shift n has_stripe,
  let m := metadata_new_from_stripe_source shift n has_stripe in
  m = current_metadata shift (md_headers m) /\
  length (md_headers m) = n /\
  forall i, i < n ->
    N.testbit (nth i (md_headers m) 0%N) 2 = has_stripe i /\
    N.testbit (nth i (md_headers m) 0%N) 0 = false /\
    N.testbit (nth i (md_headers m) 0%N) 1 = false.
Proof.
  intros shift n f m. split; [reflexivity|].
  cbn [m md_headers metadata_new_from_stripe_source].
  rewrite map_length, seq_length. split; [reflexivity|]. intros i Hi.
  rewrite (nth_indep _ 0%N ((fun i => if f i then FLAG_HAS_SOURCE else 0%N) 0))
    by (rewrite map_length, seq_length; exact Hi).
  rewrite (map_nth (fun i => if f i then FLAG_HAS_SOURCE else 0%N)), seq_nth by exact Hi.
  cbn [Nat.add]. destruct (f i); repeat split; reflexivity.
Qed.

Theorem C05_fresh_without_source : forall shift n k,
  metadata_new shift n k = metadata_new_from_stripe_source shift n (fun i => i <? k).
Proof. reflexivity. Qed.

(** Completely fetched = every stripe with source data is marked fetched. *)
Theorem C05_fetched_all : forall m,
  has_fetched_all_stripes m = true <->
  forall i, i < length (md_headers m) ->
    N.testbit (nth i (md_headers m) 0%N) 2 = true -> N.testbit (nth i (md_headers m) 0%N) 0 = true.
Proof.
  intros m.
  assert (T : forall h k, negb (N.land h (2 ^ k) =? 0)%N = N.testbit h k).
  { intros h k. destruct (N.testbit h k) eqn:E.
    - apply negb_true_iff, N.eqb_neq. intro H0.
      assert (N.testbit (N.land h (2 ^ k)) k = true)
        by (rewrite N.land_spec, E, N.pow2_bits_true; reflexivity).
      rewrite H0, N.bits_0 in H. discriminate.
    - apply negb_false_iff, N.eqb_eq. apply N.bits_inj. intro j.
      rewrite N.land_spec, N.bits_0. destruct (N.eq_dec k j) as [->|Hne].
      + rewrite E. reflexivity.
      + rewrite N.pow2_bits_false by exact Hne. apply andb_false_r. }
  unfold has_fetched_all_stripes. rewrite forallb_forall.
  assert (P : forall h, (((N.land h FLAG_HAS_SOURCE =? 0)%N || negb (N.land h FLAG_FETCHED =? 0)%N) = true)
              <-> (N.testbit h 2 = true -> N.testbit h 0 = true)).
  { intros h. change FLAG_HAS_SOURCE with (2 ^ 2)%N. change FLAG_FETCHED with (2 ^ 0)%N.
    rewrite (T h 0%N). rewrite <- (negb_involutive (N.land h (2 ^ 2) =? 0)%N), (T h 2%N).
    destruct (N.testbit h 2), (N.testbit h 0); cbn; intuition congruence. }
  split.
  - intros H i Hi. apply P. apply H. now apply nth_In.
  - intros H h Hin. apply P. destruct (In_nth _ _ 0%N Hin) as (i & Hi & <-). now apply H.
Qed.

Example C05_nonvacuous :
  md_headers (metadata_new 11 5 2) = [4; 4; 0; 0; 0]%N /\
  has_fetched_all_stripes (metadata_new 11 5 2) = false /\
  has_fetched_all_stripes (current_metadata 11 [5; 0; 7; 2]%N) = true.
Proof. repeat split; reflexivity. Qed.

Print Assumptions C01_metadata_roundtrip.
Print Assumptions C02_load_accepts_exactly_valid.
Print Assumptions C03_burst_detected.
Print Assumptions C04_addressing.
Print Assumptions C04_update_is_local.
Print Assumptions C05_fetched_all.
