(** C84: the device stack is built as configured.

    [launch w xts c blank] is a backend coming up in the world [w] (the files, and what is
    behind an archive or a server) with the configuration [c]; [xts k1 k2] is the sector
    cipher with these keys. *)
From Coq Require Import List Arith NArith ZArith Bool Lia ZifyBool ZifyNat ZifyN.
Import ListNotations.
From Verif Require Import Base BaseFacts DiskSpec MetadataModel LazyState LazyModel LazySpec CryptModel CryptSpec SetupModel SetupSpec SetupProps
  LayerSpec LayerModel SyncModel UringDiskModel UringDiskSpec UringDiskProps CryptOpenModel CryptOpenSpec CryptOpenCheck CryptOpenProps StackModel StackSpec StackProofs.
From Verif Require SyncSpec SyncProps LayerProps CryptProps MetadataProps GuestModel GuestSpec GuestProps UblkDiskSpec UblkDiskProps.
Local Open Scope nat_scope.
Ltac Zify.zify_post_hook ::= Z.div_mod_to_equations.

Notation xts_type := (list byte -> list byte -> (list byte -> list byte -> list byte) * (list byte -> list byte -> list byte)).

(** ** The layers *)

(** The guests' device: the data file, behind the cipher exactly if a key is configured
    (its halves, 32 bytes each); with a metadata path, the lazy device over that.  It has
    an image to read from exactly if a raw image is configured that is not to be copied
    on reads, and that is the configured file; it tracks writes if that is configured. *)
Theorem C84_layers : forall w (xts : xts_type) c blank l, launch w xts c blank = Ok l ->
  exists data, is_device w c (c_data c) false data /\
    match c_metadata c with
    | None => l_bdev l = data /\ l_lazy l = None
    | Some _ => exists image k h, l_bdev l = DLazy data image (c_track c) /\ l_lazy l = Some (k, h) /\
        track k = c_track c /\ target k = sector_count data /\
        (has_image k = true <-> image <> None) /\
        match c_source c with
        | Some (CRaw p _ false) => exists o n, image = Some (DFile o n) /\ opened_as c p 64 true o
        | _ => image = None
        end
    end.
Proof.
  intros w xts c blank l H. unfold launch in H. apply bind_ok in H as ((d & k) & B & H). apply build_ok in B as (data & D & B).
  exists data. split; [exact D|]. destruct (c_metadata c) as [p|].
  - destruct B as (meta & m & image & M & Lm & -> & I & ->). cbn [fst snd] in H. apply bind_ok in H as (r & R & H).
    apply Ok_inj in H. subst l. cbn [l_bdev l_lazy]. destruct (snd r) as [k h] eqn:Er. exists image, k, h.
    split; [reflexivity|]. split; [reflexivity|]. unfold build_bgworker in R. apply bind_ok in R as (s & _ & R).
    cbn [b_ssc b_fetched b_metadata b_target b_autofetch] in R.
    destruct (_ <? _); [discriminate|]. destruct (_ <? _); [discriminate|]. apply Ok_inj in R. subst r. cbn [snd] in Er. injection Er as <- <-.
    cbn [track target has_image]. split; [reflexivity|]. split; [reflexivity|]. split; [|exact I].
    destruct image; split; try discriminate; auto.
  - destruct B as (-> & ->). cbn [fst snd] in H. apply Ok_inj in H. subst l. auto.
Qed.

(** The background worker is that of SetupModel.v: a device with a metadata path starts
    with the headers, stripe size, source and options that C55 is about. *)
Theorem C84_starts_as_set_up : forall w (xts : xts_type) c blank l p, source_matches w c -> c_metadata c = Some p ->
  launch w xts c blank = Ok l ->
  exists k h, l_lazy l = Some (k, h) /\ start (setup_of xts w c) blank (file_of w p) = Ok (k, h).
Proof. intros w xts c blank l p. exact (start_of w xts c l blank p). Qed.

(** ** The files *)

(** All files that are opened, for the guests' channels and by the background worker:
    the data and the metadata file, for reading and writing, and the raw image, only for
    reading; all with O_DIRECT, and with O_SYNC exactly if write_through is configured. *)
Theorem C84_files : forall w (xts : xts_type) c blank l, source_matches w c -> launch w xts c blank = Ok l ->
  forall o, In o (openings (l_bdev l) ++ l_worker l) ->
    o_direct o = true /\ o_sync o = c_through c /\ o_engine o = c_engine c /\
    if o_readonly o then exists a r, c_source c = Some (CRaw (o_path o) a r)
    else o_path o = c_data c \/ c_metadata c = Some (o_path o).
Proof.
  intros w xts c blank l SM H o Ho. destruct (launch_files w xts c l blank SM H o Ho) as [(P & O)|(p & a & r & S & O)];
    destruct O as (O1 & O2 & O3 & O4 & O5 & O6); rewrite O4; repeat (split; [assumption|]); auto. subst p. eauto.
Qed.

(** Whatever happens on a device over a file that was opened only for reading, through
    failures and power losses: the file keeps what it had.  So neither guests nor the
    background worker change the image. *)
Theorem C84_read_only_files_unchanged : forall w (xts : xts_type) o n tr fin,
  serves xts w (DFile o n) tr fin -> o_readonly o = true -> forall x, fin x = Some (sector_at w (o_path o) x).
Proof. intros w xts o n tr fin. exact (read_only_kept w xts o n tr fin). Qed.

(** The tools that look at a device open all its files only for reading. *)
Theorem C84_tools_only_read : forall w (xts : xts_type) c l, source_matches w c ->
  archive_devices w xts c = Ok l \/ dump_devices w c = Ok l -> forall o, In o l -> o_readonly o = true.
Proof.
  intros w xts c l SM [H|H] o Ho.
  - unfold archive_devices in H. destruct (c_metadata c) as [p|]; [|discriminate]. apply bind_ok in H as (meta & M & H).
    apply bind_ok in H as (m & _ & H). apply bind_ok in H as (disk & D & H). apply bind_ok in H as (s & S & H). apply Ok_inj in H. subst l.
    apply (block_ok w xts) in M, D. apply (source_ok w xts) in S as (_ & S); [|exact SM]. rewrite !in_app_iff in Ho. destruct Ho as [Ho|[Ho|Ho]].
    + apply (device_openings _ _ _ _ _ M _ Ho).
    + apply (device_openings _ _ _ _ _ D _ Ho).
    + destruct (S _ Ho) as (p' & a & r & _ & O). apply O.
  - unfold dump_devices in H. apply bind_ok in H as (disk & D & H). destruct (c_metadata c) as [p|]; [|discriminate].
    apply bind_ok in H as (meta & M & H). apply Ok_inj in H. subst l. apply (block_ok w xts) in M, D. rewrite in_app_iff in Ho. destruct Ho as [Ho|Ho].
    + apply (device_openings _ _ _ _ _ D _ Ho).
    + apply (device_openings _ _ _ _ _ M _ Ho).
Qed.

(** ** A configuration that is fit comes up *)

(** After init-metadata has succeeded for the configured disk and source, the backend comes
    up with what it left at the metadata path, and the device is well configured and holds
    the source laid over the data file. *)
Theorem C84_new_device_comes_up : forall w (xts : xts_type) c blank p io umask shift p0 seen,
  ready w c -> source_matches w c -> cipher_ok (cipher_of xts c) -> c_metadata c = Some p ->
  init_metadata (setup_of xts w c) io umask shift p0 = (seen, Ok tt) ->
  w_file w p = Some (content_of (hd p0 seen)) ->
  source_usable (source_of w c) shift (length (file_of w (c_data c)) / 512) ->
  source_fits (source_of w c) (N.to_nat (2 ^ shift)) (length (file_of w (c_data c)) / 512) ->
  exists l k h, launch w xts c blank = Ok l /\ l_lazy l = Some (k, h) /\ well_configured k h /\
    overlaid (setup_of xts w c) (N.to_nat (2 ^ shift)) (sector_count (l_bdev l)) (configured_contents xts w c l).
Proof.
  intros w xts c blank p io umask shift p0 seen R SM K Hp Hi Hf U F.
  destruct (C55_new_device_starts (setup_of xts w c) io umask shift p0 seen blank Hi K U (or_introl F)) as (k & h & St & WC & T & O).
  destruct (launch_of_start w xts c blank p k h R SM Hp) as (l & L & E).
  { rewrite Hf. discriminate. }
  { unfold file_of. rewrite Hf. exact St. }
  exists l, k, h. split; [exact L|]. split; [exact E|]. split; [exact WC|].
  assert (C : sector_count (l_bdev l) = target k).
  { destruct (C84_layers _ _ _ _ _ L) as (data & D & X). rewrite Hp in X. destruct X as (image & k' & h' & Eb & E' & _ & T' & _).
    rewrite E in E'. injection E' as <- <-. rewrite Eb. cbn [sector_count]. symmetry. exact T'. }
  rewrite C, T. unfold configured_contents. rewrite E. exact O.
Qed.

(** No configuration whose keys have at least 32 bytes makes a backend panic while it
    comes up, whatever is in the files (the loader accepts keys of 64 bytes only). *)
Theorem C84_never_panics : forall w (xts : xts_type) c blank, cipher_ok (cipher_of xts c) ->
  (forall id k, c_key c = Some id -> c_secrets c id = Some k -> 32 <= length k) ->
  launch w xts c blank <> Panic.
Proof.
  intros w xts c blank K HK.
  assert (Bp : forall A B (r : res A) (f : A -> res B), r <> Panic -> (forall a, r = Ok a -> f a <> Panic) -> bindr r f <> Panic).
  { intros A B [a|e|] f H1 H2; cbn; [now apply H2|discriminate|contradiction]. }
  assert (E1 : forall e p q ro di th, create_io_engine_device w e p q ro di th <> Panic).
  { intros e p q ro di th. unfold create_io_engine_device. destruct e.
    - destruct (w_file w p); [|destruct (negb _); discriminate]. apply Bp; [|discriminate]. unfold open_uring.
      destruct (negb _); [discriminate|]. destruct (negb _); discriminate.
    - destruct (w_file w p); [|discriminate]. apply Bp; [|discriminate]. unfold SyncModel.open_device. destruct (negb _); discriminate. }
  assert (E2 : build_raw_image_device w c <> Panic).
  { unfold build_raw_image_device. destruct (c_source c); [|discriminate]. destruct (raw_image_path _); [|discriminate]. apply Bp; [apply E1|discriminate]. }
  assert (E3 : forall p ro, build_block_device w p c ro <> Panic).
  { intros p ro. unfold build_block_device. apply Bp; [apply E1|]. intros d _. destruct (c_key c) as [id|]; [|discriminate].
    destruct (c_secrets c id) as [k|] eqn:E; [|discriminate]. specialize (HK id k eq_refl E). apply Bp.
    - unfold split_at. replace (length k <? 32) with false by lia. discriminate.
    - intros a _. unfold crypt_device, ensure_32_bytes. apply Bp; [destruct (_ =? _); discriminate|]. intros k1 _.
      apply Bp; [destruct (_ =? _); discriminate|]. discriminate. }
  assert (E4 : forall p ro d, build_block_device w p c ro = Ok d -> load_metadata w xts d <> Panic).
  { intros p ro d H. apply (block_ok w xts) in H. rewrite (device_load _ _ _ _ _ _ H). unfold load_image. apply Bp.
    { unfold SetupModel.open_device. destruct (negb _); discriminate. }
    intros n Hn. apply open_device_ok in Hn as (Hn & ->). destruct (negb _); [discriminate|]. apply Bp.
    2:{ intros b _. apply MetadataProps.C02_load_total. }
    unfold decrypt. destruct (cipher_of xts c) as [[enc dec]|]; [|discriminate]. destruct K as (_ & _ & K).
    destruct (CryptProps.C21_sector_uses_its_own_tweak dec (file_of w p) 0 (length (file_of w p) / 512)) as (b & E & _); [exact K|lia|].
    rewrite E. discriminate. }
  assert (E5 : forall ssc fe, build_stripe_source w c ssc fe <> Panic).
  { intros ssc fe. unfold build_stripe_source. destruct fe; [discriminate|].
    assert (X : build_source (w_source w) ssc false <> Panic).
    { unfold build_source. destruct (w_source w); try discriminate. destruct (negb _); [discriminate|]. apply Bp; [|discriminate].
      unfold RemoteModel.remote_sector_count. destruct (_ <? _)%N; discriminate. }
    assert (Y : (let! i := build_raw_image_device w c in
       match i with Some d => Ok (Some d, bdev_source (sector_count d) ssc) | None => Ok (None, null_source ssc) end) <> Panic).
    { apply Bp; [exact E2|]. intros [d|] _; discriminate. }
    destruct (c_source c) as [[p a r|a|a]|]; try exact Y; (apply Bp; [exact X|discriminate]). }
  unfold launch. apply Bp.
  - unfold build. destruct (negb _); [discriminate|]. apply Bp; [apply E3|]. intros data D. destruct (c_metadata c) as [p|]; [|discriminate].
    apply Bp; [apply E3|]. intros meta M. unfold build_with_bgworker. apply Bp; [eapply E4; eauto|]. intros m _. apply Bp; [|discriminate].
    unfold build_bdev_lazy. apply Bp; [|discriminate]. destruct (match c_source c with Some _ => _ | None => _ end); [discriminate|exact E2].
  - intros [d [k|]] _; [|discriminate]. cbn [fst snd]. apply Bp; [|discriminate]. unfold build_bgworker. apply Bp; [apply E5|].
    intros s _. destruct (_ <? _); [discriminate|]. destruct (_ <? _); [discriminate|]. destruct d; discriminate.
Qed.

(** ** What the guest sees *)

(** A backend that has come up, its device at work over the files of the world: all a guest
    of it notes is a history of one ordinary disk, which at first holds the data file,
    decrypted with the configured key if there is one, overlaid with the configured source,
    and at the end what the files then hold. *)
Theorem C84_guest_sees_the_configured_disk : forall w (xts : xts_type) c blank l g fin
  valid qsize did nslots bufsize m0 gs P gtr,
  source_matches w c -> whole_sectors w -> cipher_ok (cipher_of xts c) ->
  launch w xts c blank = Ok l -> (forall k h, l_lazy l = Some (k, h) -> well_configured k h) ->
  at_work xts w l g fin ->
  GuestSpec.session valid qsize did nslots bufsize (sector_count (l_bdev l)) m0 gs P g gtr ->
  exists d, disk_behaviour (sector_count (l_bdev l)) (configured_contents xts w c l) gtr d /\
    forall x, x < sector_count (l_bdev l) -> cur (d_hist d x) = fin x.
Proof.
  intros w xts c blank l g fin valid qsize did nslots bufsize m0 gs P gtr SM W K L WC A S.
  assert (Hc : forall x, x < sector_count (l_bdev l) -> N.of_nat (length (configured_contents xts w c l x)) = 512%N).
  { intros x Hx. rewrite (contents_length w xts c l blank SM W K L WC x Hx). reflexivity. }
  pose proof (LayerProps.C79_backend_keeps_the_contract _ _ _ _ _ _ _ _ _ _ _ _ S Hc) as Hg.
  destruct (work_disk w xts c l blank g fin SM K L WC A Hg) as (d & D & E).
  destruct (GuestProps.C78_guest_sees_a_disk _ _ _ _ _ _ _ _ _ _ _ _ _ S Hc D) as (d' & D' & Eh).
  exists d'. split; [exact D'|]. intros x Hx. rewrite <- (E x Hx). exact (f_equal (fun f => cur (f x)) Eh).
Qed.

(** The same for the kernel driver on a ublk backend. *)
Theorem C84_driver_sees_the_configured_disk : forall w (xts : xts_type) c blank l g fin max depth us P ktr,
  source_matches w c -> whole_sectors w -> cipher_ok (cipher_of xts c) ->
  launch w xts c blank = Ok l -> (forall k h, l_lazy l = Some (k, h) -> well_configured k h) ->
  at_work xts w l g fin -> (max < 2 ^ 31)%N ->
  UblkDiskSpec.session max depth (sector_count (l_bdev l)) us P g ktr ->
  exists d, disk_behaviour (sector_count (l_bdev l)) (configured_contents xts w c l) ktr d /\
    forall x, x < sector_count (l_bdev l) -> cur (d_hist d x) = fin x.
Proof.
  intros w xts c blank l g fin max depth us P ktr SM W K L WC A Hm S.
  assert (Hc : forall x, x < sector_count (l_bdev l) -> N.of_nat (length (configured_contents xts w c l x)) = 512%N).
  { intros x Hx. rewrite (contents_length w xts c l blank SM W K L WC x Hx). reflexivity. }
  pose proof (UblkDiskProps.C80_keeps_the_contract _ _ _ _ _ _ _ _ Hm S Hc) as Hg.
  destruct (work_disk w xts c l blank g fin SM K L WC A Hg) as (d & D & E).
  destruct (UblkDiskProps.C80_driver_sees_a_disk _ _ _ _ _ _ _ _ _ Hm S Hc D) as (d' & D' & Eh).
  exists d'. split; [exact D'|]. intros x Hx. rewrite <- (E x Hx). apply Eh.
Qed.

(** From init-metadata to the guest: a new device, any guest. *)
Theorem C84_guest_of_a_new_device : forall w (xts : xts_type) c blank p io umask shift p0 seen l g fin
  valid qsize did nslots bufsize m0 gs P gtr,
  ready w c -> source_matches w c -> whole_sectors w -> cipher_ok (cipher_of xts c) -> c_metadata c = Some p ->
  init_metadata (setup_of xts w c) io umask shift p0 = (seen, Ok tt) ->
  w_file w p = Some (content_of (hd p0 seen)) ->
  source_usable (source_of w c) shift (length (file_of w (c_data c)) / 512) ->
  source_fits (source_of w c) (N.to_nat (2 ^ shift)) (length (file_of w (c_data c)) / 512) ->
  launch w xts c blank = Ok l -> at_work xts w l g fin ->
  GuestSpec.session valid qsize did nslots bufsize (sector_count (l_bdev l)) m0 gs P g gtr ->
  exists contents d, overlaid (setup_of xts w c) (N.to_nat (2 ^ shift)) (sector_count (l_bdev l)) contents /\
    disk_behaviour (sector_count (l_bdev l)) contents gtr d /\
    forall x, x < sector_count (l_bdev l) -> cur (d_hist d x) = fin x.
Proof.
  intros w xts c blank p io umask shift p0 seen l g fin valid qsize did nslots bufsize m0 gs P gtr R SM W K Hp Hi Hf U F L A S.
  destruct (C84_new_device_comes_up w xts c blank p io umask shift p0 seen R SM K Hp Hi Hf U F) as (l' & k & h & L' & El & WC & O).
  rewrite L in L'. apply Ok_inj in L'. subst l'. exists (configured_contents xts w c l).
  destruct (C84_guest_sees_the_configured_disk w xts c blank l g fin valid qsize did nslots bufsize m0 gs P gtr) as (d & D & E); auto.
  { intros k' h' E'. rewrite El in E'. injection E' as <- <-. exact WC. }
  exists d. auto.
Qed.

(** ** Concrete cases *)

Definition p_data : path := [1%N].
Definition p_meta : path := [2%N].
Definition p_image : path := [3%N].

(** A cipher that depends on both keys and on the sector. *)
Definition ex_xts : xts_type := fun k1 k2 =>
  let f := fun t v => map (N.lxor (nth 8 t 0 + nth 0 k1 0 + nth 0 k2 0)%N) v in (f, f).
Definition ex_key : list byte := (1 :: repeat 9 31 ++ repeat 0 32)%N.

Lemma ex_xts_ok : forall k1 k2, cipher_ok (Some (ex_xts k1 k2)).
Proof.
  intros k1 k2. cbn. split; [|split]; intros t v H; rewrite ?map_length; auto. rewrite map_map. rewrite <- (map_id v) at 2.
  apply map_ext. intros a. rewrite <- N.lxor_assoc, N.lxor_nilpotent, N.lxor_0_l. reflexivity.
Qed.

(** Six sectors of data; an image of four, holding 100, 101, ...; stripes of two sectors. *)
Notation fill := GuestProps.fill.
Definition ex_config (cor : bool) (key : list byte) : config :=
  mk_config p_data (Some p_meta) true (Some (CRaw p_image false cor)) IoUring 4 false (Some [7%N]) (fun _ => Some key).
Definition ex_files (p : path) : option (list byte) :=
  match p with
  | [1%N] => Some (concat (map LayerProps.ex_stored (seq 0 6)))
  | [2%N] => match save_image (Some (ex_xts (firstn 32 ex_key) (skipn 32 ex_key))) (MetadataSpec.current_metadata 1 [FLAG_HAS_SOURCE; FLAG_HAS_SOURCE; 0]%N) 2 with
             | Ok b => Some b | _ => None end
  | [3%N] => Some (concat (map (fun x => fill (100 + N.of_nat x)) (seq 0 4)))
  | _ => None
  end.
Definition ex_world : world := mk_world ex_files (fun _ => true) SrcNone.

(** A key of fewer than 32 bytes: [build_block_device] would panic.  (The loader of the
    configuration refuses such a key; the builder does not check.) *)
Theorem C84_refuted_short_key :
  launch ex_world ex_xts (ex_config true (repeat 5%N 16)) [] = Panic.
Proof. vm_compute. reflexivity. Qed.

(** A key of, say, 48 bytes is refused. *)
Example C84_other_keys_refused : is_err (launch ex_world ex_xts (ex_config true (repeat 5%N 48)) []) = true.
Proof. vm_compute. reflexivity. Qed.

(** What is opened: the data file for the guests; that, the metadata and the image by the
    worker; if reads go to the image directly, the image for the guests, too. *)
Definition shown (r : res launched) : list (path * bool) :=
  match r with Ok l => map (fun o => (o_path o, o_readonly o)) (openings (l_bdev l) ++ l_worker l) | _ => [] end.
Example C84_files_nonvacuous :
  source_matches ex_world (ex_config true ex_key) /\
  shown (launch ex_world ex_xts (ex_config true ex_key) (fill 0)) = [(p_data, false); (p_data, false); (p_meta, false); (p_image, true)] /\
  shown (launch ex_world ex_xts (ex_config false ex_key) (fill 0)) =
    [(p_data, false); (p_image, true); (p_data, false); (p_meta, false); (p_image, true)].
Proof. split; [exact I|]. split; vm_compute; reflexivity. Qed.

Example C84_tools_nonvacuous :
  (exists l, archive_devices ex_world ex_xts (ex_config false ex_key) = Ok l /\ map o_path l = [p_meta; p_data; p_image]) /\
  (exists l, dump_devices ex_world (ex_config false ex_key) = Ok l /\ map o_path l = [p_data; p_meta]).
Proof. split; eexists; (split; [vm_compute; reflexivity|reflexivity]). Qed.

(** The session of C78, C79 and C82 on this device. *)
Definition ex_launch := launch ex_world ex_xts (ex_config true ex_key) (fill 0).
Definition ex_l : launched := match ex_launch with Ok l => l | _ => mk_launched (DFile (mk_opening [] Sync 0 true true true) 0) [] None end.
Definition ex_c : cfg sector := match l_lazy ex_l with Some (c, _) => c | None => GuestProps.ex_cfg end.
Definition ex_hd : nat -> N := match l_lazy ex_l with Some (_, h) => h | None => fun _ => 0%N end.

Lemma some_pair : forall {A B} (a a' : A) (b b' : B), Some (a, b) = Some (a', b') -> a = a' /\ b = b'.
Proof. intros A B a a' b b' H. now injection H. Qed.

Lemma ex_launched : launch ex_world ex_xts (ex_config true ex_key) (fill 0) = Ok ex_l.
Proof.
  unfold ex_l, ex_launch. assert (E : is_err (launch ex_world ex_xts (ex_config true ex_key) (fill 0)) = false /\
    launch ex_world ex_xts (ex_config true ex_key) (fill 0) <> Panic).
  { split; [vm_compute; reflexivity|]. apply C84_never_panics; [apply ex_xts_ok|]. intros id k _ X. injection X as <-. vm_compute. lia. }
  destruct E as (E1 & E2). destruct (launch ex_world ex_xts (ex_config true ex_key) (fill 0)); [reflexivity|discriminate E1|now destruct E2].
Qed.

Lemma ex_lazy_parts : l_lazy ex_l = Some (ex_c, ex_hd).
Proof.
  unfold ex_c, ex_hd. assert (E : match l_lazy ex_l with Some _ => true | None => false end = true) by (vm_compute; reflexivity).
  destruct (l_lazy ex_l) as [[c h]|]; [reflexivity|discriminate E].
Qed.

Lemma ex_configured : well_configured ex_c ex_hd.
Proof.
  assert (E : (ssc ex_c, nst ex_c, hps ex_c, target ex_c, src ex_c) = (2, 3, 508, 6, 4)) by (vm_compute; reflexivity).
  assert (F : map ex_hd [0; 1; 2] = [FLAG_HAS_SOURCE; FLAG_HAS_SOURCE; 0%N]) by (vm_compute; reflexivity).
  generalize dependent ex_c. generalize dependent ex_hd. intros h F c E. injection E as E1 E2 E3 E4 E5. injection F as F1 F2 F3.
  assert (H : forall st, st < 3 -> h st = if st <? 2 then FLAG_HAS_SOURCE else 0%N).
  { intros [|[|[|st]]] Hst; auto. lia. }
  constructor; rewrite ?E1, ?E2, ?E3, ?E4, ?E5; try lia.
  - vm_compute. lia.
  - intros x Hx Hn Hf. left. rewrite H in Hf by exact Hn. destruct (x / 2 <? 2) eqn:L; [|discriminate]. apply Nat.ltb_lt in L. lia.
  - intros st Hst Hf. rewrite H in Hf by exact Hst. destruct (st <? 2); discriminate.
Qed.

Lemma ex_fit : LayerProps.requests_fit ex_c LayerProps.ex_open.
Proof.
  assert (E : (ssc ex_c, nst ex_c) = (2, 3)) by (vm_compute; reflexivity). generalize dependent ex_c. intros c E. injection E as E1 E2.
  destruct LayerProps.C79_nonvacuous as (_ & _ & F & _). intros q id r H. specialize (F q id r H).
  unfold in_bounds in *. rewrite E1, E2. exact F.
Qed.

(** The guest writes 7 to sector 1, flushes, the power fails, and it reads four sectors. *)
Example C84_guest_nonvacuous :
  let c := ex_config true ex_key in
  source_matches ex_world c /\ whole_sectors ex_world /\ cipher_ok (cipher_of ex_xts c) /\
  launch ex_world ex_xts c (fill 0) = Ok ex_l /\ (forall k h, l_lazy ex_l = Some (k, h) -> well_configured k h) /\
  (exists fin, at_work ex_xts ex_world ex_l GuestProps.ex_tr fin /\ fin 1 = Some (fill 7) /\ fin 2 = Some (fill 102)) /\
  exists gs, GuestSpec.session GuestProps.ex_valid 8 [65%N] 2 512 (sector_count (l_bdev ex_l)) GuestProps.ex_mem gs []
    GuestProps.ex_tr GuestProps.ex_gtr.
Proof.
  split; [exact I|]. split; [exact I|]. split; [apply ex_xts_ok|]. split; [exact ex_launched|].
  split. { intros k h E. rewrite ex_lazy_parts in E. apply some_pair in E as (E1 & E2). rewrite <- E1, <- E2. exact ex_configured. }
  assert (Db : match l_bdev ex_l with
               | DLazy (DCrypt k1 k2 (DFile o n)) _ _ => Some (k1, k2, o_path o, o_engine o, o_readonly o, o_sync o, o_entries o, n)
               | _ => None end = Some (firstn 32 ex_key, skipn 32 ex_key, p_data, IoUring, false, false, 4%N, 6)) by (vm_compute; reflexivity).
  destruct (l_bdev ex_l) as [|?|[|k1 k2 [o n| |]|] i tw] eqn:B; try discriminate Db. injection Db as Ek1 Ek2 Ep Ee Er Es Eq En.
  cbn [sector_count]. subst n. split; [|exact GuestProps.C78_nonvacuous].
  assert (E1 : option_map (fun x => (snd (fst x), snd x, map (fun st => released (shf (fst (fst x)) st)) [0; 1]))
            (orun ex_c (oinit ex_c ex_hd) LayerProps.ex_open) = Some (GuestProps.ex_tr, LayerProps.ex_between, [true; true]))
    by (vm_compute; reflexivity).
  destruct (orun ex_c (oinit ex_c ex_hd) LayerProps.ex_open) as [[[so g] b]|] eqn:R1; cbn [option_map fst snd] in E1; [|discriminate E1].
  assert (Eg := f_equal (fun x => match x with Some (y, _, _) => y | None => [] end) E1). assert (Eb := f_equal (fun x => match x with Some (_, y, _) => y | None => [] end) E1).
  assert (Er1 := f_equal (fun x => match x with Some (_, _, y) => y | None => [] end) E1). cbv beta iota in Eg, Eb, Er1. cbn [map] in Er1. clear E1. subst g b.
  set (en := on_sector (fst (ex_xts k1 k2))). set (de := on_sector (snd (ex_xts k1 k2))).
  assert (E2 : option_map (fun x => (snd (fst x), snd x)) (krun en de new_kdev ex_kes) = Some (LayerProps.ex_between, ex_below))
    by (unfold en, de; rewrite Ek1, Ek2; vm_compute; reflexivity).
  destruct (krun en de new_kdev ex_kes) as [[[sk g] b]|] eqn:R2; cbn [option_map fst snd] in E2; [|discriminate E2].
  assert (Eg := f_equal (fun x => match x with Some (y, _) => y | None => [] end) E2). assert (Eb := f_equal (fun x => match x with Some (_, y) => y | None => [] end) E2).
  cbv beta iota in Eg, Eb. clear E2. subst g b.
  assert (E3 : option_map (fun x => (snd x, cur_cell (f_cell (fst x) 1), cur_cell (f_cell (fst x) 2)))
      (frun 512 1 false false 4 (new_fdev 6 (sector_at ex_world p_data)) ex_fes) =
      Some (ex_below, Some (LayerProps.ex_enc 1 (fill 7)), Some (LayerProps.ex_enc 2 (fill 102)))) by (vm_compute; reflexivity).
  destruct (frun 512 1 false false 4 (new_fdev 6 (sector_at ex_world p_data)) ex_fes) as [[f b]|] eqn:R3; cbn [option_map fst snd] in E3; [|discriminate E3].
  assert (Eb := f_equal (fun x => match x with Some (y, _, _) => y | None => [] end) E3). assert (F1 := f_equal (fun x => match x with Some (_, y, _) => y | None => None end) E3).
  assert (F2 := f_equal (fun x => match x with Some (_, _, y) => y | None => None end) E3). cbv beta iota in Eb, F1, F2. clear E3. subst b.
  assert (Ssc : ssc ex_c = 2) by (vm_compute; reflexivity).
  set (fb := fun x => option_map (de x) (cur_cell (f_cell f x))).
  exists (fun x => if released (shf so (x / ssc ex_c)) then fb x else Some (image ex_c x)). split; [|split].
  - unfold at_work. rewrite B, ex_lazy_parts. exists LayerProps.ex_open, so, LayerProps.ex_between, fb.
    split; [exact ex_fit|]. split; [exact R1|]. split; [|reflexivity].
    refine (serves_crypt ex_xts ex_world k1 k2 (DFile o 6) ex_kes sk LayerProps.ex_between ex_below (fun x => cur_cell (f_cell f x)) R2 _ _).
    + apply (all_buffers_sound 14); [intros n _; reflexivity|rewrite Ek1, Ek2; vm_compute; reflexivity].
    + refine (serves_uring ex_xts ex_world o 6 ex_fes f ex_below Ee _ _ _ _); rewrite ?Er, ?Es, ?Eq, ?Ep; try exact R3.
      * reflexivity.
      * apply (calls_sound 14); [intros n _; reflexivity|vm_compute; reflexivity].
      * intros n k H. cbn [ex_fes In] in H. repeat (destruct H as [H|H]; [discriminate H|]). exact H.
  - rewrite Ssc. change (1 / 2) with 0. injection Er1 as -> _. cbv iota. unfold fb. rewrite F1.
    unfold de. rewrite Ek1, Ek2. vm_compute. reflexivity.
  - rewrite Ssc. change (2 / 2) with 1. injection Er1 as _ ->. cbv iota. unfold fb. rewrite F2.
    unfold de. rewrite Ek1, Ek2. vm_compute. reflexivity.
Qed.

(** A plain file with the sync engine, and the kernel driver's session of C80 on it. *)
Definition ex_plain : config := mk_config [4%N] None false None Sync 4 false None (fun _ => None).
Definition ex_plain_world : world :=
  mk_world (fun p => match p with [4%N] => Some (concat (map UblkDiskProps.ex_contents (seq 0 6))) | _ => None end) (fun _ => true) SrcNone.
Definition ex_ses : list (sevent sector) :=
  [ SRead 2 1 0 0 2 (repeat (fill 0) 2); SWrite 1 0 0 1 1 [fill 7; fill 0]; SCopy 0 1; SReturn 0 (Moved 1); SPoll 0; SReturn 1 Interrupted;
    SReturn 1 (Moved 1); SReturn 1 (Moved 1); SPoll 1; SCrash (fun _ => 0) ].
Example C84_driver_nonvacuous :
  source_matches ex_plain_world ex_plain /\ whole_sectors ex_plain_world /\ cipher_ok (cipher_of ex_xts ex_plain) /\
  exists l, launch ex_plain_world ex_xts ex_plain [] = Ok l /\ (forall k h, l_lazy l = Some (k, h) -> well_configured k h) /\
  (exists fin, at_work ex_xts ex_plain_world l UblkDiskProps.ex_tr fin /\ fin 1 = Some (fill 7)) /\
  exists us, UblkDiskSpec.session 1024 2 (sector_count (l_bdev l)) us [] UblkDiskProps.ex_tr UblkDiskProps.ex_ktr.
Proof.
  split; [exact I|]. split; [exact I|]. split; [exact I|]. eexists. split; [vm_compute; reflexivity|]. cbn [l_lazy l_bdev sector_count].
  split; [discriminate|]. split; [|exact (proj1 UblkDiskProps.C80_nonvacuous)].
  assert (E : option_map (fun x => (snd x, SyncModel.cur_cell (s_cell (fst x) 1)))
     (srun 512 1 false false (new_sdev 6 (sector_at ex_plain_world [4%N])) ex_ses) = Some (UblkDiskProps.ex_tr, Some (fill 7))) by (vm_compute; reflexivity).
  destruct (srun 512 1 false false (new_sdev 6 (sector_at ex_plain_world [4%N])) ex_ses) as [[s tr]|] eqn:R; cbn [option_map fst snd] in E; [|discriminate E].
  assert (Et := f_equal (fun x => match x with Some (y, _) => y | None => [] end) E). assert (Ef := f_equal (fun x => match x with Some (_, y) => y | None => None end) E).
  cbv beta iota in Et, Ef. subst tr. exists (fun x => SyncModel.cur_cell (s_cell s x)). split; [|exact Ef]. unfold at_work. cbn [l_bdev l_lazy].
  apply (serves_sync ex_xts ex_plain_world (mk_opening [4%N] Sync 0 false true false) 6 ex_ses s UblkDiskProps.ex_tr).
  - reflexivity.
  - reflexivity.
  - unfold ex_ses. repeat constructor; cbn; lia.
  - exact R.
Qed.

(** A new device: 128 sectors of data, an image of 64, stripes of 64; the metadata file
    is what init-metadata leaves. *)
Definition new_files (meta : list byte) (p : path) : option (list byte) :=
  match p with
  | [1%N] => Some (repeat 3%N 65536)
  | [2%N] => Some meta
  | [3%N] => Some (repeat 8%N 32768)
  | _ => None
  end.
Definition new_world (meta : list byte) : world := mk_world (new_files meta) (fun _ => true) SrcNone.
Definition new_meta : list byte :=
  content_of (hd NAbsent (fst (init_metadata (setup_of ex_xts (new_world []) (ex_config false ex_key)) works 18 6 NAbsent))).

Example C84_new_device_nonvacuous :
  let c := ex_config false ex_key in let w := new_world new_meta in
  ready w c /\ source_matches w c /\ cipher_ok (cipher_of ex_xts c) /\ c_metadata c = Some p_meta /\
  (exists seen, init_metadata (setup_of ex_xts w c) works 18 6 NAbsent = (seen, Ok tt) /\
     w_file w p_meta = Some (content_of (hd NAbsent seen))) /\
  source_usable (source_of w c) 6 (length (file_of w (c_data c)) / 512) /\
  source_fits (source_of w c) (N.to_nat (2 ^ 6)) (length (file_of w (c_data c)) / 512).
Proof.
  cbv zeta. split.
  { split; [reflexivity|]. split; [discriminate|]. split.
    - intros p a r E. cbn [ex_config c_source] in E. injection E as <- _ _. eexists. split; [reflexivity|]. rewrite repeat_length. reflexivity.
    - split; [intros _; exists 2%N; reflexivity|]. intros id _. exists ex_key. split; reflexivity. }
  split; [exact I|]. split; [apply ex_xts_ok|]. split; [reflexivity|].
  assert (L : length (file_of (new_world new_meta) p_data) / 512 = 128) by (change (file_of (new_world new_meta) p_data) with (repeat 3%N 65536); rewrite repeat_length; reflexivity).
  assert (L2 : length (file_of (new_world new_meta) p_image) / 512 = 64) by (change (file_of (new_world new_meta) p_image) with (repeat 8%N 32768); rewrite repeat_length; reflexivity).
  split; [|change (c_data (ex_config false ex_key)) with p_data; rewrite L; cbn [source_of ex_config c_source]; rewrite L2; split; [left|]; vm_compute; try reflexivity; lia].
  change (setup_of ex_xts (new_world new_meta) (ex_config false ex_key)) with (setup_of ex_xts (new_world []) (ex_config false ex_key)).
  assert (E : snd (init_metadata (setup_of ex_xts (new_world []) (ex_config false ex_key)) works 18 6 NAbsent) = Ok tt) by (vm_compute; reflexivity).
  exists (fst (init_metadata (setup_of ex_xts (new_world []) (ex_config false ex_key)) works 18 6 NAbsent)). split.
  - rewrite <- E. now destruct (init_metadata _ _ _ _ _).
  - reflexivity.
Qed.

Print Assumptions C84_layers.
Print Assumptions C84_starts_as_set_up.
Print Assumptions C84_files.
Print Assumptions C84_read_only_files_unchanged.
Print Assumptions C84_tools_only_read.
Print Assumptions C84_new_device_comes_up.
Print Assumptions C84_never_panics.
Print Assumptions C84_guest_sees_the_configured_disk.
Print Assumptions C84_driver_sees_the_configured_disk.
Print Assumptions C84_guest_of_a_new_device.
Print Assumptions C84_refuted_short_key.
