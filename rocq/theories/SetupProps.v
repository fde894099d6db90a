(** Properties C55-C57: init-metadata and the first start of a device. *)
From Coq Require Import List Arith NArith ZArith Bool Lia ZifyBool ZifyNat ZifyN.
Import ListNotations.
From Verif Require Import Base BaseFacts MetadataModel MetadataProofs MetadataSpec DiskSpec TraceSpec LazyModel LazySpec LazyProps CryptModel CryptSpec SetupModel SetupSpec SetupProofs.
From Verif Require ArchiveModel RemoteModel.
Local Open Scope nat_scope.
Ltac Zify.zify_post_hook ::= Z.div_mod_to_equations.


Lemma skipn_repeat {A} (x : A) n k : skipn k (repeat x n) = repeat x (n - k).
Proof. revert k. induction n as [|n IH]; intros [|k]; cbn; auto. Qed.
Lemma firstn_repeat {A} (x : A) n k : k <= n -> firstn k (repeat x n) = repeat x k.
Proof. revert k. induction n as [|n IH]; intros [|k] H; cbn; auto; [lia|]. f_equal. apply IH. lia. Qed.

Section Props.
Context {V : Type}.
Variable su : setup V.

(** The sectors of the disk, and of a stripe. *)
Notation sectors := (su_disk su / 512).
Notation stripe shift := (N.to_nat (2 ^ shift)).

Lemma open_device_ok : forall n k, open_device n = Ok k <-> n mod 512 = 0 /\ k = n / 512.
Proof.
  intros n k. unfold open_device, SECTOR_SIZE. destruct (n mod 512 =? 0) eqn:E; cbn [negb].
  - apply Nat.eqb_eq in E. split; [intros H; apply Ok_inj in H; auto|]. intros (_ & ->). reflexivity.
  - apply Nat.eqb_neq in E. split; [discriminate|]. tauto.
Qed.

Lemma fresh_disk : forall shift m, fresh_metadata su shift = Ok m -> open_device (su_disk su) = Ok sectors.
Proof.
  intros shift m H. unfold fresh_metadata in H. destruct (open_device (su_disk su)) as [k| |] eqn:E; try discriminate.
  apply open_device_ok in E as (E1 & ->). reflexivity.
Qed.

Lemma save_wf : forall k m n img, save_image k m n = Ok img -> (N.of_nat (length (md_headers m)) < 2 ^ 32)%N.
Proof.
  intros k m n img H. unfold save_image in H. destruct (negb _); [discriminate|]. destruct (_ <? metadata_size m); [discriminate|].
  destruct (write_to_buf m (repeat 0%N (metadata_size m))) eqn:E; try discriminate. unfold write_to_buf in E.
  destruct (_ <? metadata_size m); [discriminate|]. destruct (N.of_nat (length (md_headers m)) <? 2 ^ 32)%N eqn:L; [|discriminate].
  apply N.ltb_lt. exact L.
Qed.

(** What a completed init-metadata leaves in the file. *)
Lemma init_loads : forall io umask shift p seen, init_metadata su io umask shift p = (seen, Ok tt) ->
  cipher_ok (su_cipher su) -> source_usable (su_source su) shift sectors ->
  exists n has, open_device (su_disk su) = Ok sectors /\
    source_is (su_source su) (stripe shift) n has /\
    build_source (su_source su) (stripe shift) false = Ok (n, has) /\
    load_image (su_cipher su) (content_of (hd p seen)) =
      Ok (current_metadata shift (fresh_headers has (div_ceil sectors (stripe shift)))).
Proof.
  intros io umask shift p seen H K U. apply init_inv in H as (S & m & ns & mode & image & rest & F & _ & _ & SI & _ & ->).
  pose proof (fresh_disk _ _ F) as D. destruct (fresh_ok su shift _ D U) as (n & has & I & B & F').
  rewrite F in F'. apply Ok_inj in F'. subst m.
  exists n, has. split; [exact D|]. split; [exact I|]. split; [exact B|]. cbn [hd content_of].
  apply save_load with (sectors := ns); auto. apply fresh_wf; [lia|].
  apply save_wf in SI. cbn [md_headers current_metadata] in SI. rewrite fresh_headers_length in SI. exact SI.
Qed.

(** ** C55: a new device starts, and reads as its source laid over the disk *)

(** After init-metadata has succeeded, for any disk, source, stripe size and
    encryption: if the source fits the disk, or has no data for any stripe of the
    disk, the device starts, and it is a well-configured device (so C06 to C19
    apply to it) whose contents are those of the source laid over the disk. *)
Theorem C55_new_device_starts : forall io umask shift p seen blank,
  init_metadata su io umask shift p = (seen, Ok tt) ->
  cipher_ok (su_cipher su) -> source_usable (su_source su) shift sectors ->
  source_fits (su_source su) (stripe shift) sectors \/
    (forall st, st * stripe shift < sectors -> ~ source_holds (su_source su) (stripe shift) st) ->
  exists c h, start su blank (content_of (hd p seen)) = Ok (c, h) /\ well_configured c h /\
    target c = sectors /\ overlaid su (stripe shift) sectors (initial_contents c (su_base su) h).
Proof.
  intros io umask shift p seen blank H K U F.
  destruct (init_loads _ _ _ _ _ H K U) as (n & has & D & I & B & L).
  destruct (start_fresh su shift sectors n has _ blank D I B U L) as (G & _).
  destruct G as (c & h & G1 & G2 & G3 & _ & G5).
  { destruct F as [F|F]; [left; apply (fits_iff _ _ _ _ _ I); exact F|right]. intros st Hst.
    destruct (has st) eqn:E; [|reflexivity]. apply (si_has _ _ _ _ I) in E. exfalso. exact (F st Hst E). }
  exists c, h. auto.
Qed.

(** Everything the guest then sees, through any failures and crashes, is what an
    ordinary disk with those contents does. *)
Theorem C55_reads_as_source : forall io umask shift p seen blank,
  init_metadata su io umask shift p = (seen, Ok tt) ->
  cipher_ok (su_cipher su) -> source_usable (su_source su) shift sectors ->
  source_fits (su_source su) (stripe shift) sectors ->
  exists c h contents, start su blank (content_of (hd p seen)) = Ok (c, h) /\
    overlaid su (stripe shift) sectors contents /\
    forall es, exists d, disk_behaviour sectors contents (history c (su_base su) h es) d.
Proof.
  intros io umask shift p seen blank H K U F.
  destruct (C55_new_device_starts _ _ _ _ _ blank H K U (or_introl F)) as (c & h & G1 & G2 & G3 & G4).
  exists c, h, (initial_contents c (su_base su) h). split; [exact G1|]. split; [exact G4|].
  intros es. destruct (C06_lazy_device_is_a_disk c (su_base su) h G2 es) as (d & B & _). rewrite G3 in B. exists d. exact B.
Qed.

(** A source that is too large for the disk is refused at the start (not by
    init-metadata), if it has data for a stripe of the disk. *)
Theorem C55_too_large_refused : forall io umask shift p seen blank st,
  init_metadata su io umask shift p = (seen, Ok tt) ->
  cipher_ok (su_cipher su) -> source_usable (su_source su) shift sectors ->
  ~ source_fits (su_source su) (stripe shift) sectors ->
  st * stripe shift < sectors -> source_holds (su_source su) (stripe shift) st ->
  is_err (start su blank (content_of (hd p seen))) = true.
Proof.
  intros io umask shift p seen blank st H K U F Hst Hh.
  destruct (init_loads _ _ _ _ _ H K U) as (n & has & D & I & B & L).
  destruct (start_fresh su shift sectors n has _ blank D I B U L) as (_ & G). apply G.
  - intros X. apply F. apply (fits_iff _ _ _ _ _ I). exact X.
  - exists st. split; [exact Hst|]. apply (si_has _ _ _ _ I). exact Hh.
Qed.

(** init-metadata succeeds when no call fails: for every disk of whole sectors and
    fewer than 2^32 stripes, on a path where there is nothing or a file of whole
    sectors below 2 TiB. *)
Theorem C55_init_succeeds : forall io umask shift p,
  (forall k, io k = true) -> cipher_ok (su_cipher su) -> source_usable (su_source su) shift sectors ->
  (6 <= shift <= 16)%N -> su_disk su mod 512 = 0 ->
  (N.of_nat (sectors / stripe shift) < 2 ^ 32 - 2)%N ->
  (p = NAbsent \/ exists mode content, p = NFile mode content /\ length content mod 512 = 0 /\
     (N.of_nat (length content) < 2 ^ 41)%N) ->
  exists seen, init_metadata su io umask shift p = (seen, Ok tt).
Proof.
  intros io umask shift p IO K U Sh D N P. unfold init_metadata, SHIFT_MIN, SHIFT_MAX.
  replace ((6 <=? shift) && (shift <=? 16))%N with true by (symmetry; apply andb_true_iff; rewrite !N.leb_le; lia). cbn [negb].
  assert (OD : open_device (su_disk su) = Ok sectors) by (apply open_device_ok; auto).
  destruct (fresh_ok su shift _ OD U) as (n & has & I & B & F). rewrite F.
  set (m := current_metadata shift (fresh_headers has (div_ceil sectors (stripe shift)))).
  pose proof (ssc_pos shift) as Hk. 
  assert (NS : (N.of_nat (div_ceil sectors (stripe shift)) < 2 ^ 32)%N).
  { pose proof (div_ceil_le sectors (stripe shift) (S (sectors / stripe shift)) Hk) as Y.
    pose proof (Nat.mul_succ_div_gt sectors (stripe shift) ltac:(lia)). 
    assert (sectors <= S (sectors / stripe shift) * stripe shift) by lia. specialize (Y H0). clear - Y N. lia. }
  assert (W : meta_wf m) by (apply fresh_wf; [lia|exact NS]).
  assert (MS : metadata_size m = 512 * (1 + div_ceil (div_ceil sectors (stripe shift)) 508)).
  { rewrite metadata_size_sectors. unfold stripe_header_sector_count, m. cbn [md_headers current_metadata]. rewrite fresh_headers_length. reflexivity. }
  set (g := div_ceil (div_ceil sectors (stripe shift)) 508) in *.
  assert (HG : (N.of_nat (1 + g) < 2 ^ 32)%N).
  { assert (g <= div_ceil sectors (stripe shift) / 508 + 1).
    { unfold g. apply div_ceil_le; [lia|]. pose proof (Nat.mul_succ_div_gt (div_ceil sectors (stripe shift)) 508 ltac:(lia)). lia. }
    clear - H NS. set (x := div_ceil sectors (stripe shift)) in *. clearbody x g. lia. }
  assert (E : exists seen, ensure_metadata_file io umask p (metadata_size m) = (seen, Ok tt)).
  { unfold ensure_metadata_file, ensure_mode, ensure_size, ensure_sync. rewrite !IO. cbn [negb].
    rewrite !andb_false_r.
    destruct P as [->|(mode & content & -> & _)].
    - destruct (N.land _ _ =? _)%N; cbn [negb]; destruct (_ <? metadata_size m); eauto.
    - destruct (N.land _ _ =? _)%N; cbn [negb]; destruct (_ <? metadata_size m); eauto. }
  destruct E as (seen & E). rewrite E. pose proof (ensure_inv _ _ _ _ _ _ E) as (_ & _ & E3 & _).
  destruct (E3 eq_refl) as ((mode & content & HD) & OO & LM & (z & EX) & EL).
  (* the length of the file *)
  assert (LC : exists ns, length (content_of (hd p seen)) = ns * 512 /\ 1 + g <= ns /\ (N.of_nat ns < 2 ^ 32)%N).
  { unfold ensure_metadata_file in E. rewrite IO in E. cbn [negb] in E.
    destruct P as [->|(mode0 & content0 & -> & PM & PL)].
    - exists (1 + g). rewrite (EL NAbsent eq_refl). split; [lia|]. split; [lia|exact HG].
    - assert (X : content_of (hd (NFile mode0 content0) seen) = extend content0 (metadata_size m)).
      { unfold ensure_mode, ensure_size, ensure_sync in E. rewrite !IO in E. cbn [negb andb] in E.
        destruct (N.land _ _ =? _)%N; cbn [negb] in E; destruct (length content0 <? metadata_size m) eqn:LL; injection E as <-; cbn [hd content_of]; try reflexivity;
          apply Nat.ltb_ge in LL; unfold extend; replace (metadata_size m - length content0) with 0 by lia; rewrite app_nil_r; reflexivity. }
      rewrite X. unfold extend. rewrite app_length, repeat_length, MS.
      exists (Nat.max (length content0 / 512) (1 + g)). clear - PM PL HG. lia. }
  destruct LC as (ns & LC & L1 & L2).
  replace (open_device (length (content_of (hd p seen)))) with (Ok ns : res nat)
    by (symmetry; apply open_device_ok; rewrite LC, Nat.mod_mul, Nat.div_mul by lia; auto).
  destruct (save_total (su_cipher su) m ns W K L2) as (img & SI); [rewrite MS; lia|].
  rewrite SI, !IO. cbn [negb]. eexists. reflexivity.
Qed.

(** Success is only reported after everything was written and made durable: the
    stripe size is allowed, and no call failed: neither opening (0), stat (1), sync
    (4), the write (6) and the flush (7), nor, where they are needed, chmod (2),
    extending (3) and syncing the directory of a new file (5). *)
Theorem C55_success_is_complete : forall io umask shift p seen,
  init_metadata su io umask shift p = (seen, Ok tt) ->
  cipher_ok (su_cipher su) -> source_usable (su_source su) shift sectors ->
  (6 <= shift <= 16)%N /\ io 0 = true /\ io 1 = true /\ io 4 = true /\ io 6 = true /\ io 7 = true /\
  (p = NAbsent -> io 3 = true /\ io 5 = true) /\
  (forall mode content, p = NFile mode content ->
     (N.land mode 4095 <> 384%N -> io 2 = true) /\ (length content < length (content_of (hd p seen)) -> io 3 = true)).
Proof.
  intros io umask shift p seen H K U. pose proof (init_inv _ _ _ _ _ _ H) as (S & m & ns & mode & image & rest & F & E & O & SI & _ & EQ).
  split; [exact S|]. unfold init_metadata in H.
  destruct (negb _) in H; [discriminate|]. rewrite F, E, O, SI in H.
  destruct (io 6); [|discriminate]. destruct (io 7); [|discriminate]. clear H.
  assert (MS : 0 < metadata_size m).
  { unfold metadata_size, SECTOR_SIZE. lia. }
  assert (LI : length image = length (content_of (hd p rest))).
  { apply open_device_ok in O as (O1 & ->).
    pose proof (fresh_disk _ _ F) as D. destruct (fresh_ok su shift _ D U) as (n & has & I & B & F').
    rewrite F in F'. apply Ok_inj in F'. assert (W : meta_wf m).
    { subst m. apply fresh_wf; [lia|]. apply save_wf in SI. cbn [md_headers current_metadata] in SI.
      rewrite fresh_headers_length in SI. exact SI. }
    destruct (save_load _ _ _ _ W K SI) as (L & _). rewrite L. clear - O1. lia. }
  subst seen. cbn [hd content_of]. rewrite LI. clear LI SI O image mode F S.
  unfold ensure_metadata_file in E. destruct (io 0); [|discriminate]. cbn [negb] in E.
  assert (Sync : forall created seen, ensure_sync io created seen = (rest, Ok tt) -> io 4 = true /\ (created = true -> io 5 = true) /\ rest = seen).
  { unfold ensure_sync. intros created seen H. destruct (io 4); [|discriminate]. cbn [negb] in H.
    destruct created; cbn [andb] in H; [destruct (io 5); [|discriminate]|]; cbn [negb] in H; split; auto; split; auto; congruence. }
  assert (Size : forall created mode content seen, ensure_size io created (metadata_size m) mode content seen = (rest, Ok tt) ->
    io 4 = true /\ (created = true -> io 5 = true) /\ (length content < metadata_size m -> io 3 = true) /\
    (metadata_size m <= length content -> rest = seen)).
  { unfold ensure_size. intros created mode content seen H. destruct (length content <? metadata_size m) eqn:L.
    - destruct (io 3); [|discriminate]. apply Sync in H as (A & B & C). repeat split; auto. intros X. lia.
    - apply Sync in H as (A & B & C). repeat split; auto. intros X. lia. }
  assert (Mode : forall created mode content seen, ensure_mode io created (metadata_size m) mode content seen = (rest, Ok tt) ->
    io 1 = true /\ (N.land mode 4095 <> 384%N -> io 2 = true) /\ io 4 = true /\ (created = true -> io 5 = true) /\
    (length content < metadata_size m -> io 3 = true) /\
    (metadata_size m <= length content -> rest = seen \/ rest = NFile MODE_600 content :: seen)).
  { unfold ensure_mode. intros created mode content seen H. destruct (io 1); [|discriminate]. cbn [negb] in H.
    destruct (N.land mode MODE_MASK =? MODE_600)%N eqn:L; cbn [negb] in H.
    - apply Size in H as (A & B & C & D). apply N.eqb_eq in L. unfold MODE_MASK, MODE_600 in L.
      split; [reflexivity|]. split; [intros X; now rewrite L in X|]. repeat split; auto.
    - destruct (io 2); [|discriminate]. apply Size in H as (A & B & C & D). repeat split; auto. }
  destruct p as [|md content| |]; try discriminate.
  - apply Mode in E as (A & B & C & D & E & _). repeat split; auto; try discriminate.
  - apply Mode in E as (A & B & C & D & E & G). repeat split; auto; try discriminate; injection H as -> ->; auto.
    intros X. match type of G with _ <= length ?l -> _ => destruct (Nat.lt_ge_cases (length l) (metadata_size m)) as [L|L] end; auto.
    exfalso. destruct (G L) as [->| ->]; cbn in X; lia.
Qed.

(** A device that starts has the options of its configuration: whether writes are
    tracked, whether stripes are fetched in the background, and reads go directly to
    the source exactly if it is a raw image that is not to be copied on reads. *)
Theorem C55_options : forall b file c h, start su b file = Ok (c, h) ->
  track c = su_track su /\ autofetch c = su_autofetch su /\ target c = sectors /\
  (has_image c = true <-> exists n img, su_source su = SrcRaw n img false).
Proof.
  intros b file c h H. unfold start in H.
  destruct (open_device (su_disk su)) as [k| |] eqn:D; try discriminate. cbn [bindr] in H. apply open_device_ok in D as (_ & ->).
  destruct (load_image (su_cipher su) file) as [m| |]; try discriminate. cbn [bindr] in H.
  destruct (build_source _ _ _) as [s| |]; try discriminate. cbn [bindr] in H.
  destruct (_ <? div_ceil _ _); [discriminate|]. destruct (_ <? fst s); [discriminate|].
  apply Ok_inj in H. injection H as <- <-. cbn [track autofetch target has_image].
  split; [reflexivity|]. split; [reflexivity|]. split; [reflexivity|].
  destruct (su_source su) as [|n img cor| |]; cbn [reads_image]; split; try discriminate; try (intros (n0 & i0 & X); discriminate).
  - intros E. destruct cor; [discriminate|]. eauto.
  - intros (n0 & i0 & X). injection X as _ _ ->. reflexivity.
Qed.

(** ** C56: the metadata file is private, and links are not followed *)

Theorem C56_private : forall io umask shift p seen r,
  init_metadata su io umask shift p = (seen, r) ->
  (* a file that init-metadata creates is never accessible to others, *)
  (p = NAbsent -> forall q, In q seen -> private q) /\
  (* metadata is only ever written into a file with permissions 0600, *)
  (forall q, In q seen -> (exists n, content_of q = content_of p ++ repeat 0%N n) \/ owner_only q) /\
  (* and after success that is what the file has. *)
  (r = Ok tt -> owner_only (hd p seen)).
Proof.
  intros io umask shift p seen r H. unfold init_metadata in H.
  destruct (negb _) in H. { injection H as <- <-. split; [intros _ q []|]. split; [intros q []|discriminate]. }
  destruct (fresh_metadata su shift) as [m| |].
  2,3: injection H as <- <-; (split; [intros _ q []|]; split; [intros q []|discriminate]).
  destruct (ensure_metadata_file io umask p (metadata_size m)) as [s0 r0] eqn:E.
  pose proof (ensure_inv _ _ _ _ _ _ E) as (E1 & E2 & E3 & _).
  assert (B : (p = NAbsent -> forall q, In q s0 -> private q) /\
     (forall q, In q s0 -> (exists n, content_of q = content_of p ++ repeat 0%N n) \/ owner_only q)).
  { split.
    - intros P q Hq. destruct (E1 q Hq) as (mode & c & -> & _ & X). apply X. exact P.
    - intros q Hq. destruct (E1 q Hq) as (mode & c & -> & X & _). left. exact X. }
  destruct B as (B1 & B2).
  destruct r0 as [u| |]; [|injection H as <- <-; split; [exact B1|]; split; [exact B2|discriminate]|congruence].
  destruct u. destruct (E3 eq_refl) as ((mode & content & HD) & OO & _ & _ & _).
  destruct (open_device _) as [ns| |]; [|injection H as <- <-; split; [exact B1|]; split; [exact B2|discriminate]|injection H as <- <-; split; [exact B1|]; split; [exact B2|discriminate]].
  destruct (save_image _ _ _) as [img| |]; [|injection H as <- <-; split; [exact B1|]; split; [exact B2|discriminate]|injection H as <- <-; split; [exact B1|]; split; [exact B2|discriminate]].
  destruct (io 6); cbn [negb] in H; [|injection H as <- <-; split; [exact B1|]; split; [exact B2|discriminate]].
  assert (OW : owner_only (NFile (mode_of (hd p s0)) img)) by (rewrite HD in *; exact OO).
  assert (PR : private (NFile (mode_of (hd p s0)) img)).
  { cbn in OW |- *. apply N.bits_inj. intros j. rewrite N.land_spec, N.bits_0.
    destruct (N.testbit 63 j) eqn:T; [|apply andb_false_r]. rewrite andb_true_r.
    assert (J : (j < 6)%N). { destruct (N.lt_ge_cases j 6) as [J|J]; [exact J|]. change 63%N with (N.ones 6) in T. rewrite N.ones_spec_high in T by exact J. discriminate. }
    pose proof (f_equal (fun z => N.testbit z j) OW) as X. cbv beta in X. rewrite N.land_spec in X.
    change 4095%N with (N.ones 12) in X. rewrite N.ones_spec_low in X by lia. rewrite andb_true_r in X. rewrite X.
    assert (C : (j = 0 \/ j = 1 \/ j = 2 \/ j = 3 \/ j = 4 \/ j = 5)%N) by lia.
    destruct C as [->|[->|[->|[->|[->| ->]]]]]; reflexivity. }
  assert (seen = NFile (mode_of (hd p s0)) img :: s0) by (destruct (io 7); cbn [negb] in H; injection H as <- <-; reflexivity).
  subst seen. split; [|split].
  - intros P q [<-|Hq]; [exact PR|apply B1; auto].
  - intros q [<-|Hq]; [right; exact OW|apply B2; exact Hq].
  - intros _. exact OW.
Qed.

(** A symbolic link, a directory or a device at the path is left as it is. *)
Theorem C56_links_not_followed : forall io umask shift p seen r,
  init_metadata su io umask shift p = (seen, r) -> p = NSymlink \/ p = NOther -> seen = [] /\ r <> Ok tt.
Proof.
  intros io umask shift p seen r H P. unfold init_metadata in H.
  destruct (negb _) in H. { injection H as <- <-. split; [reflexivity|discriminate]. }
  destruct (fresh_metadata su shift) as [m| |]; [|injection H as <- <-; split; [reflexivity|discriminate]|injection H as <- <-; split; [reflexivity|discriminate]].
  destruct (ensure_metadata_file io umask p (metadata_size m)) as [s0 r0] eqn:E.
  pose proof (ensure_inv _ _ _ _ _ _ E) as (_ & _ & _ & E4). destruct (E4 P) as (-> & NE).
  destruct r0 as [[]| |]; [congruence| |]; injection H as <- <-; (split; [reflexivity|discriminate]).
Qed.

(** ** C57: an interrupted init-metadata is noticed *)

(** Take any run of init-metadata and stop it at any point of its final write,
    when some sectors of the file have been written and some have not.  If the
    file had no sector with a correct checksum before, the device either refuses to
    start from what is there or starts as after a complete run. *)
Theorem C57_interrupted : forall io umask shift p final rest f blank,
  init_metadata su io umask shift p = (final :: rest, Ok tt) ->
  cipher_ok (su_cipher su) -> source_usable (su_source su) shift sectors ->
  torn (content_of (hd p rest)) (content_of final) f ->
  (forall s, s * 512 < length f -> unsealed (seen_sector (su_cipher su) (content_of (hd p rest)) s)) ->
  start su blank f = start su blank (content_of final) \/ is_err (start su blank f) = true.
Proof.
  intros io umask shift p final rest f blank H K U T Un.
  destruct (init_loads _ _ _ _ _ H K U) as (n & has & D & I & B & L). cbn [hd] in L.
  destruct (interrupted (su_cipher su) (content_of (hd p rest)) (content_of final) f _ K L T) as [X|X].
  - intros s Hs. apply Un. destruct T as (_ & T2 & _). rewrite T2. exact Hs.
  - left. unfold start. rewrite X, L. reflexivity.
  - right. unfold start. rewrite D. cbn [bindr]. destruct (load_image (su_cipher su) f); [discriminate|reflexivity|discriminate].
Qed.

(** In particular on a new file without encryption. *)
Theorem C57_new_file : forall io umask shift final rest f blank,
  init_metadata su io umask shift NAbsent = (final :: rest, Ok tt) ->
  su_cipher su = None -> source_usable (su_source su) shift sectors ->
  torn (content_of (hd NAbsent rest)) (content_of final) f ->
  start su blank f = start su blank (content_of final) \/ is_err (start su blank f) = true.
Proof.
  intros io umask shift final rest f blank H K U T.
  apply (C57_interrupted _ _ _ _ _ _ _ _ H); auto. { rewrite K. exact I. }
  rewrite K. intros s Hs.
  apply init_inv in H as (S & m & ns & mode & image & rest' & F & E & O & SI & _ & EQ). injection EQ as -> ->.
  pose proof (ensure_inv _ _ _ _ _ _ E) as (_ & _ & E3 & _). destruct (E3 eq_refl) as (_ & _ & _ & (z & EX) & _).
  destruct T as (T1 & T2 & _). rewrite EX in *. cbn [content_of app] in *.
  apply open_device_ok in O as (O & _). rewrite repeat_length in *.
  cbn [seen_sector].
  replace (sector_of (repeat 0%N z) s) with (repeat 0%N 512); [vm_compute; discriminate|].
  symmetry. unfold sector_of. rewrite skipn_repeat. apply firstn_repeat. lia.
Qed.

End Props.

(** ** Concrete cases *)

(** A disk of 192 sectors; an image of 128 sectors; encryption that reverses the
    bytes of a sector.  The image holds 1000, 1001, ..., the disk 0, 1, ... *)
Definition demo_cipher : cipher := Some (fun _ v => rev v, fun _ v => rev v).
Definition demo (disk : nat) (src : stripe_source nat) (k : cipher) : setup nat :=
  mk_setup (disk * 512) (fun x => x) src false false k.
Definition demo_image (n : nat) : stripe_source nat := SrcRaw n (fun x => 1000 + x) false.
Definition works (_ : nat) : bool := true.

Lemma demo_cipher_ok : cipher_ok demo_cipher.
Proof.
  split; [|split].
  - intros t v _. apply rev_involutive.
  - intros t v H. rewrite rev_length. exact H.
  - intros t v H. rewrite rev_length. exact H.
Qed.

Definition demo_su := demo 192 (demo_image 128) demo_cipher.
Definition demo_file (su : setup nat) (shift : N) : node := hd NAbsent (fst (init_metadata su works 18 shift NAbsent)).
Definition started (su : setup nat) (file : list byte) (x : nat) : res nat :=
  let! r := start su 0 file in Ok (initial_contents (fst r) (su_base su) (snd r) x).

Example C55_nonvacuous :
  snd (init_metadata demo_su works 18 6 NAbsent) = Ok tt /\
  source_usable (su_source demo_su) 6 (su_disk demo_su / 512) /\
  source_fits (su_source demo_su) (N.to_nat (2 ^ 6)) (su_disk demo_su / 512) /\
  map (started demo_su (content_of (demo_file demo_su 6))) [0; 127; 128; 191] = [Ok 1000; Ok 1127; Ok 128; Ok 191].
Proof.
  split; [vm_compute; reflexivity|]. split; [left; vm_compute; reflexivity|].
  split; [vm_compute; lia|]. vm_compute. reflexivity.
Qed.

Example C55_too_large_nonvacuous :
  let su := demo 192 (demo_image 256) None in
  snd (init_metadata su works 18 6 NAbsent) = Ok tt /\
  source_usable (su_source su) 6 (su_disk su / 512) /\
  ~ source_fits (su_source su) (N.to_nat (2 ^ 6)) (su_disk su / 512) /\
  source_holds (su_source su) (N.to_nat (2 ^ 6)) 0.
Proof.
  split; [vm_compute; reflexivity|]. split; [left; vm_compute; reflexivity|].
  split; [vm_compute; lia|]. vm_compute. lia.
Qed.

(** Whole stripes must fit: a disk of 100 sectors in 64-sector stripes, with data in
    both stripes, is served to a client whose disk has the same 100 sectors.
    init-metadata succeeds, but the client's device does not start. *)
Definition server_metadata : metadata := current_metadata 6 [2; 2]%N.

Theorem C55_refuted_same_size :
  let su := demo 100 (SrcRemote server_metadata (fun x => 1000 + x)) None in
  length (md_headers server_metadata) = div_ceil (su_disk su / 512) (N.to_nat (2 ^ 6)) /\
  source_usable (su_source su) 6 (su_disk su / 512) /\
  exists seen, init_metadata su works 18 6 NAbsent = (seen, Ok tt) /\
    is_err (start su 0 (content_of (hd NAbsent seen))) = true.
Proof.
  split; [vm_compute; reflexivity|]. split; [split; [reflexivity|vm_compute; reflexivity]|].
  eexists. split; [vm_compute; reflexivity|]. vm_compute. reflexivity.
Qed.

(** A source whose only data lies beyond the end of the disk is not refused. *)
Example C55_data_beyond_the_end_ignored :
  let su := demo 128 (SrcRemote (current_metadata 6 [0; 0; 2]%N) (fun x => 1000 + x)) None in
  ~ source_fits (su_source su) (N.to_nat (2 ^ 6)) (su_disk su / 512) /\
  map (started su (content_of (demo_file su 6))) [0; 127] = [Ok 0; Ok 127].
Proof.
  split; [|vm_compute; reflexivity]. intros F. specialize (F 2). vm_compute in F.
  assert (X : 192 <= 128) by (apply F; split; [lia|left; reflexivity]). lia.
Qed.

Example C56_nonvacuous :
  (* created under umask 022 *)
  mode_of (demo_file demo_su 6) = 384%N /\
  (* a file others could read *)
  map mode_of (fst (init_metadata demo_su works 0 6 (NFile 420 (repeat 7%N 512)))) = [384; 384; 384]%N /\
  (* ... and when its mode cannot be changed *)
  (let '(seen, r) := init_metadata demo_su (fun k => negb (k =? 2)) 0 6 (NFile 420 (repeat 7%N 512)) in
   seen = [] /\ is_err r = true).
Proof. split; [vm_compute; reflexivity|]. split; [vm_compute; reflexivity|]. vm_compute. split; reflexivity. Qed.

Example C57_nonvacuous :
  let su := demo 192 (demo_image 128) None in
  exists final rest f,
    init_metadata su works 18 6 NAbsent = (final :: rest, Ok tt) /\
    torn (content_of (hd NAbsent rest)) (content_of final) f /\
    f <> content_of final /\ is_err (start su 0 f) = true.
Proof.
  set (su := demo 192 (demo_image 128) None).
  set (img := content_of (demo_file su 6)).
  exists (demo_file su 6), (tl (fst (init_metadata su works 18 6 NAbsent))), (firstn 512 img ++ repeat 0%N 512).
  split; [vm_compute; reflexivity|]. split; [|split].
  - split; [vm_compute; reflexivity|]. split; [vm_compute; reflexivity|].
    intros s Hs. assert (C : s = 0 \/ s = 1) by (replace (length (content_of (demo_file su 6))) with (2 * 512) in Hs by (vm_compute; reflexivity); lia).
    destruct C as [->| ->]; [right|left]; vm_compute; reflexivity.
  - intros E. apply (f_equal (fun l => nth 512 l 0%N)) in E. vm_compute in E. discriminate.
  - vm_compute. reflexivity.
Qed.

(** Over older metadata an interrupted init-metadata is not noticed.  A disk of 128
    sectors has metadata with 64-sector stripes; stripe 0 has been fetched.
    init-metadata is run again with 128-sector stripes and stopped after the first
    sector.  The device starts; sector 64, which reads as the image's before and
    after the command, now reads as the disk's. *)
Theorem C57_refuted_old_metadata :
  let su := demo 128 (demo_image 128) None in
  exists old final rest f,
    save_image None (current_metadata 6 [5; 4]%N) 2 = Ok old /\
    init_metadata su works 18 7 (NFile 384 old) = (final :: rest, Ok tt) /\
    torn (content_of (hd (NFile 384 old) rest)) (content_of final) f /\
    started su old 64 = Ok 1064 /\ started su (content_of final) 64 = Ok 1064 /\ started su f 64 = Ok 64.
Proof.
  set (su := demo 128 (demo_image 128) None).
  set (old := match save_image None (current_metadata 6 [5; 4]%N) 2 with Ok b => b | _ => [] end).
  set (final := hd NAbsent (fst (init_metadata su works 18 7 (NFile 384 old)))).
  exists old, final, (tl (fst (init_metadata su works 18 7 (NFile 384 old)))), (firstn 512 (content_of final) ++ skipn 512 old).
  split; [vm_compute; reflexivity|]. split; [vm_compute; reflexivity|]. split; [|split; [vm_compute; reflexivity|split; vm_compute; reflexivity]].
  split; [vm_compute; reflexivity|]. split; [vm_compute; reflexivity|].
  intros s Hs. assert (C : s = 0 \/ s = 1) by (replace (length (content_of final)) with (2 * 512) in Hs by (vm_compute; reflexivity); lia).
  destruct C as [->| ->]; [right|left]; vm_compute; reflexivity.
Qed.

Print Assumptions C55_new_device_starts.
Print Assumptions C55_reads_as_source.
Print Assumptions C55_too_large_refused.
Print Assumptions C55_init_succeeds.
Print Assumptions C55_options.
Print Assumptions C55_success_is_complete.
Print Assumptions C55_refuted_same_size.
Print Assumptions C56_private.
Print Assumptions C56_links_not_followed.
Print Assumptions C57_interrupted.
Print Assumptions C57_new_file.
Print Assumptions C57_refuted_old_metadata.
