(** C87: the lazy device over any base device and any metadata device.

    The metadata device is outside, as in MetaLayerModel.v: it is sent sectors of bytes and
    flushes, and reports completions.  Whatever it reports, and even if it keeps nothing,
    the guest sees a disk until the backend stops.  If it is a disk, then after a crash at
    any time the sectors left on it, read byte by byte, say of every stripe where the
    guest's data is: in the source if it is marked as having one and not as fetched, and on
    the base device otherwise.  On the way the metadata device is called by the contract. *)
From Coq Require Import List Arith NArith ZArith Bool Lia ZifyBool ZifyNat ZifyN.
Import ListNotations.
From Verif Require Import Base BaseFacts DiskSpec TraceSpec TraceFacts MetadataModel MetadataSpec LazyState LazyModel LazySpec LayerSpec LayerModel MetaLayerModel
  CryptSpec CryptModel SetupModel StackModel StackSpec StackProps RestartSpec RestartProps.
From Verif Require MetadataProofs LayerProofs LayerProps RestartProofs MetaLayerProofs GuestProps.
Local Open Scope nat_scope.
Ltac Zify.zify_post_hook ::= Z.div_mod_to_equations.

(** The header of stripe [st] in the sectors [f] (the layout of C01: 508 headers in each
    sector from sector 1 on). *)
Definition header_in (f : nat -> option (list byte)) (st : nat) : option byte :=
  option_map (fun sec => nth (st mod 508) sec 0%N) (f (1 + st / 508)).

(** The checksum of a sector is that of its headers. *)
Definition sealed (sec : list byte) : Prop :=
  length sec = 512 /\ skipn 508 sec = le_bytes 4 (crc32 (firstn 508 sec)).

(** By its header, the data of a stripe is in the source. *)
Definition in_source (hd : byte) : bool := has_flag FLAG_HAS_SOURCE hd && negb (has_flag FLAG_FETCHED hd).

Lemma run_fits : forall {V} (k : cfg V) pes, LayerProps.requests_fit k (other_steps pes) -> forall e, In e pes -> MetaLayerProofs.pevent_fits k e.
Proof.
  intros V k pes Fi [e|n ok] He; cbn; [|exact I]. apply (LayerProps.fits k _ Fi). unfold other_steps. apply in_flat_map. exists (PStep e). split; [exact He|now left].
Qed.

(** Nothing the metadata device does can be seen by the guest as wrong data: only the base
    device has to be a disk.  Released stripes (the ones the guest's requests go through to)
    are on the base device, the others in the source. *)
Theorem C87_whatever_the_metadata_device_does : forall (V : Type) (k : cfg V) (base : nat -> V) h pes s g b m d,
  well_configured k h -> LayerProps.requests_fit k (other_steps pes) ->
  prun k (oinit k h) pes = Some (s, g, b, m) ->
  disk_behaviour (target k) base b d ->
  exists d', disk_behaviour (target k) (initial_contents k base h) g d' /\
    forall x, x < target k -> cur (d_hist d' x) = if released (shf s (x / ssc k)) then cur (d_hist d x) else Some (image k x).
Proof.
  intros V k base h pes s g b m d WC Fi Hp Hb.
  destruct (MetaLayerProofs.base_sees_layer k h pes s g b m (run_fits k pes Fi) Hp) as (oes & so & O & F & E).
  rewrite <- E. exact (LayerProps.C79_lazy_over_any_disk V k base h oes so g b d WC (RestartProofs.fits_back k oes F) O Hb).
Qed.

(** Towards the base device, the guest's contract is handed on. *)
Theorem C87_base_called_by_the_contract : forall (V : Type) (k : cfg V) (base : nat -> V) h pes s g b m,
  well_configured k h -> LayerProps.requests_fit k (other_steps pes) ->
  prun k (oinit k h) pes = Some (s, g, b, m) ->
  respects (target k) (initial_contents k base h) g -> respects (target k) base b.
Proof.
  intros V k base h pes s g b m WC Fi Hp Hg.
  destruct (MetaLayerProofs.base_sees_layer k h pes s g b m (run_fits k pes Fi) Hp) as (oes & so & O & F & _).
  exact (LayerProofs.respects_base k base h WC oes so g b F O Hg).
Qed.

(** The metadata flusher does not use the id of a request that is still in flight. *)
Theorem C87_metadata_called_by_the_contract : forall (V : Type) (k : cfg V) (base : nat -> V) h msize mbase pes s g b m,
  well_configured k h -> hps k = 508 -> (forall st, st < nst k -> 1 + st / 508 < msize) ->
  LayerProps.requests_fit k (other_steps pes) ->
  prun k (oinit k h) pes = Some (s, g, b, m) ->
  behaves (target k) base b -> respects msize mbase m.
Proof.
  intros V k base h msize mbase pes s g b m WC Hk Room Fi Hp Hb.
  refine (MetaLayerProofs.respects_meta k base h WC Hk msize mbase _ pes s g b m (run_fits k pes Fi) Hp Hb).
  intros st Hs. unfold group_of. rewrite Hk. exact (Room st Hs).
Qed.

Lemma nth_flushed : forall hs st sec, st < length hs -> flusher_sector hs st = Ok sec -> nth (st mod 508) sec 0%N = nth st hs 0%N.
Proof.
  intros hs st sec H E. rewrite MetadataProofs.flusher_sector_ok in E by exact H. apply Ok_inj in E. subst sec.
  rewrite MetadataProofs.nth_sector_image; [|apply MetadataProofs.chunk_length|lia]. rewrite MetadataProofs.nth_chunk by lia. f_equal. lia.
Qed.

(** What a crash leaves.  [d], [dB]: the metadata device and the base device after it. *)
Theorem C87_metadata_after_a_crash : forall (V : Type) (k : cfg V) (base : nat -> V) h msize mbase pes s g b m d dB,
  well_configured k h -> hps k = 508 -> (forall st, st < nst k -> 1 + st / 508 < msize) ->
  (forall st, st < nst k -> header_in (fun x => Some (mbase x)) st = Some (h st)) ->
  LayerProps.requests_fit k (other_steps pes) ->
  prun k (oinit k h) pes = Some (s, g, b, m) ->
  disk_behaviour msize mbase (m ++ [TCrash]) d -> disk_behaviour (target k) base (b ++ [TCrash]) dB ->
  exists hd d',
    (forall st, st < nst k -> header_in (fun x => cur (d_hist d x)) st = Some (hd st)) /\
    (forall st, st < nst k -> has_flag FLAG_HAS_SOURCE (hd st) = has_flag FLAG_HAS_SOURCE (h st)) /\
    disk_behaviour (target k) (initial_contents k base h) (g ++ [TCrash]) d' /\
    forall x, x < target k ->
      cur (d_hist d' x) = if (x / ssc k <? nst k) && in_source (hd (x / ssc k)) then Some (image k x) else cur (d_hist dB x).
Proof.
  intros V k base h msize mbase pes s g b m d dB WC Hk Room Hi Fi Hp Hd Hb.
  assert (Gr : forall st, group_of k st = st / 508) by (intros st; unfold group_of; now rewrite Hk).
  destruct (MetaLayerProofs.meta_open_is_closed k base h WC Hk msize mbase) with (pes := pes) (s := s) (g := g) (b := b) (m := m) (d := d) (dB := dB)
    as (oes & pm & so & Fo & Oo & Hst & Hot); auto.
  { intros st Hs. rewrite Gr. exact (Room st Hs). }
  { exact (run_fits k pes Fi). }
  pose proof (RestartProofs.fits_back k oes Fo) as Fe.
  assert (Fe' : LayerProps.requests_fit k (oes ++ [OCrash pm])).
  { intros q id rq X. apply in_app_or in X as [X|[X|[]]]; [exact (Fe _ _ _ X)|discriminate]. }
  destruct (RestartProofs.after_crash k base h WC oes pm so _ _ dB Fe Oo Hb) as (_ & Rl & Hs & _).
  destruct (LayerProps.C79_lazy_over_any_disk V k base h _ so _ _ dB WC Fe' Oo Hb) as (d' & D' & E').
  exists (loaded_headers k (mh so)), d'. split; [|split; [exact Hs|split; [exact D'|]]].
  - intros st Hst0. specialize (Hst st Hst0). rewrite Gr in Hst. unfold header_in in *. destruct Hst as [X|(X & Y)]; rewrite X; cbn [option_map]; f_equal.
    + unfold header_bytes. set (hs := map (loaded_headers k (mh so)) (seq 0 (nst k))).
      assert (Lh : st < length hs) by (unfold hs; rewrite map_length, seq_length; exact Hst0).
      pose proof (MetadataProofs.flusher_sector_ok hs st Lh) as Ef. rewrite Ef. transitivity (nth st hs 0%N); [exact (nth_flushed hs st _ Lh Ef)|]. unfold hs.
      rewrite (nth_indep _ 0%N (loaded_headers k (mh so) 0)) by (rewrite map_length, seq_length; exact Hst0). now rewrite map_nth, seq_nth.
    + specialize (Hi st Hst0). apply (f_equal (fun o => match o with Some v => v | None => 0%N end)) in Hi. cbn [option_map] in Hi. cbv beta iota in Hi.
      etransitivity; [exact Hi|]. symmetry. apply Y. apply Gr.
  - intros x Hx. rewrite (E' x Hx), Rl. unfold in_source.
    destruct (x / ssc k <? nst k), (has_flag FLAG_HAS_SOURCE (loaded_headers k (mh so) (x / ssc k))), (has_flag FLAG_FETCHED (loaded_headers k (mh so) (x / ssc k))); reflexivity.
Qed.

(** And it leaves a metadata image: sectors other than those of the headers are untouched,
    and if the header sectors had the right checksum they have it still, so that the image
    loads again (C86). *)
Theorem C87_metadata_stays_sealed : forall (V : Type) (k : cfg V) (base : nat -> V) h msize mbase pes s g b m d dB,
  well_configured k h -> hps k = 508 -> (forall st, st < nst k -> 1 + st / 508 < msize) ->
  LayerProps.requests_fit k (other_steps pes) ->
  prun k (oinit k h) pes = Some (s, g, b, m) ->
  disk_behaviour msize mbase (m ++ [TCrash]) d -> disk_behaviour (target k) base (b ++ [TCrash]) dB ->
  (forall x, (forall st, st < nst k -> x <> 1 + st / 508) -> cur (d_hist d x) = Some (mbase x)) /\
  (forall st, st < nst k -> sealed (mbase (1 + st / 508)) -> exists sec, cur (d_hist d (1 + st / 508)) = Some sec /\ sealed sec).
Proof.
  intros V k base h msize mbase pes s g b m d dB WC Hk Room Fi Hp Hd Hb.
  assert (Gr : forall st, group_of k st = st / 508) by (intros st; unfold group_of; now rewrite Hk).
  destruct (MetaLayerProofs.meta_open_is_closed k base h WC Hk msize mbase) with (pes := pes) (s := s) (g := g) (b := b) (m := m) (d := d) (dB := dB)
    as (oes & pm & so & Fo & Oo & Hst & Hot); auto.
  { intros st Hs. rewrite Gr. exact (Room st Hs). }
  { exact (run_fits k pes Fi). }
  split.
  - intros x Hx. apply Hot. intros st Hs. rewrite Gr. exact (Hx st Hs).
  - intros st Hs Sl. specialize (Hst st Hs). rewrite Gr in Hst. destruct Hst as [X|(X & _)]; rewrite X; eexists; (split; [reflexivity|]); [|exact Sl].
    unfold header_bytes. rewrite MetadataProofs.flusher_sector_ok by (rewrite map_length, seq_length; exact Hs).
    set (hs := map (loaded_headers k (mh so)) (seq 0 (nst k))).
    split; [apply MetadataProofs.sector_image_length, MetadataProofs.chunk_length|].
    pose proof (MetadataProofs.crc_ok_sector_image _ (MetadataProofs.chunk_length hs (st / 508))) as Cr. unfold MetadataProofs.crc_ok in Cr.
    apply bytes_eqb_spec in Cr. exact Cr.
Qed.

(** ** A concrete case *)

(** The run of C86: a guest writes to a stripe that has to be fetched first.  The metadata
    device has two sectors, of three stripes; the base device has six. *)
Definition meta_before (x : nat) : sector :=
  if x =? 1 then lazy_sector [FLAG_HAS_SOURCE; FLAG_HAS_SOURCE; 0]%N else repeat 1%N 512.
Definition meta_events : list (devent sector) :=
  [ DIssue 5 0 0 (RWrite 1 [lazy_sector lazy_between]); DApply 5 0; DDone 5 true; DIssue 6 0 0 RFlush; DDone 6 true;
    DIssue 7 0 0 (RWrite 1 [lazy_sector lazy_headers]); DApply 7 0; DDone 7 true; DIssue 8 0 0 RFlush; DDone 8 true; DCrash (fun _ => 0) ].
Definition base_events : list (devent sector) :=
  [ DIssue 3 0 0 (RWrite 0 [GuestProps.fill 100; GuestProps.fill 101]); DApply 3 1; DApply 3 0; DDone 3 true; DIssue 4 0 0 RFlush; DDone 4 true;
    DIssue 1 1 0 (RWrite 1 [GuestProps.fill 7]); DApply 1 0; DDone 1 true; DIssue 9 1 0 RFlush; DDone 9 true; DCrash (fun _ => 0) ].

Example C87_nonvacuous :
  well_configured ex_c ex_hd /\ hps ex_c = 508 /\ (forall st, st < nst ex_c -> 1 + st / 508 < 2) /\
  (forall st, st < nst ex_c -> header_in (fun x => Some (meta_before x)) st = Some (ex_hd st)) /\
  (forall st, st < nst ex_c -> sealed (meta_before (1 + st / 508))) /\
  LayerProps.requests_fit ex_c (other_steps lazy_steps) /\
  exists s d dB, prun ex_c (oinit ex_c ex_hd) lazy_steps = Some (s, firstn 4 lazy_tr, firstn 8 LayerProps.ex_between, meta_tr) /\
    disk_behaviour 2 meta_before (meta_tr ++ [TCrash]) d /\
    disk_behaviour (target ex_c) GuestProps.ex_base (firstn 8 LayerProps.ex_between ++ [TCrash]) dB /\
    map (header_in (fun x => cur (d_hist d x))) (seq 0 3) = map Some [FLAG_HAS_SOURCE + FLAG_FETCHED + FLAG_WRITTEN; FLAG_HAS_SOURCE; 0]%N /\
    cur (d_hist dB 1) = Some (GuestProps.fill 7).
Proof.
  assert (Nn : nst ex_c = 3) by (vm_compute; reflexivity).
  split; [exact ex_configured|]. split; [vm_compute; reflexivity|].
  assert (Lt : forall st, st < 3 -> st = 0 \/ st = 1 \/ st = 2) by (intros; lia).
  split; [rewrite Nn; intros st Hs; lia|].
  split; [rewrite Nn; intros st Hs; destruct (Lt st Hs) as [->|[->| ->]]; vm_compute; reflexivity|].
  split; [rewrite Nn; intros st Hs; destruct (Lt st Hs) as [->|[->| ->]]; split; vm_compute; reflexivity|].
  split.
  { intros q id r H. apply (ex_fit q id r). rewrite <- (firstn_skipn 21 LayerProps.ex_open). apply in_or_app. left. exact (outside_steps lazy_open _ H). }
  destruct lazy_ran as (s & R).
  assert (E1 : option_map (fun x => (snd x, map (header_in (fun y => cur (d_hist (fst x) y))) (seq 0 3))) (drun 2 (new_disk meta_before) meta_events) =
    Some (meta_tr ++ [TCrash], map Some [FLAG_HAS_SOURCE + FLAG_FETCHED + FLAG_WRITTEN; FLAG_HAS_SOURCE; 0]%N)) by (vm_compute; reflexivity).
  assert (E2 : option_map (fun x => (snd x, cur (d_hist (fst x) 1))) (drun 6 (new_disk GuestProps.ex_base) base_events) =
    Some (firstn 8 LayerProps.ex_between ++ [TCrash], Some (GuestProps.fill 7))) by (vm_compute; reflexivity).
  assert (T : target ex_c = 6) by (vm_compute; reflexivity). rewrite T.
  destruct (drun 2 (new_disk meta_before) meta_events) as [[d t1]|] eqn:D1; cbn [option_map fst snd] in E1; [|discriminate E1].
  destruct (drun 6 (new_disk GuestProps.ex_base) base_events) as [[dB t2]|] eqn:D2; cbn [option_map fst snd] in E2; [|discriminate E2].
  assert (A1 := f_equal (fun x => match x with Some (y, _) => y | None => [] end) E1). assert (A2 := f_equal (fun x => match x with Some (_, y) => y | None => [] end) E1).
  assert (B1 := f_equal (fun x => match x with Some (y, _) => y | None => [] end) E2). assert (B2 := f_equal (fun x => match x with Some (_, y) => y | None => None end) E2).
  cbv beta iota in A1, A2, B1, B2. subst t1 t2. exists s, d, dB.
  split; [exact R|]. split; [exists meta_events; exact D1|]. split; [exists base_events; exact D2|]. split; [exact A2|exact B2].
Qed.

Print Assumptions C87_whatever_the_metadata_device_does.
Print Assumptions C87_base_called_by_the_contract.
Print Assumptions C87_metadata_called_by_the_contract.
Print Assumptions C87_metadata_after_a_crash.
Print Assumptions C87_metadata_stays_sealed.
