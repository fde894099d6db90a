(** Property C71: moving a disk.  A device that has stopped is served by a stripe
    server (or archived), and a new device is set up on an empty disk with that
    server (archive) as its source: the guest of the new device finds exactly what
    the guest of the old one left.  Puts together C70 (C69), C55 and C06. *)
From Coq Require Import List Arith NArith ZArith Bool Lia ZifyBool ZifyNat ZifyN.
Import ListNotations.
From Verif Require Import Base BaseFacts DiskSpec LazyState MetadataModel MetadataSpec LazyModel LazySpec
  SetupModel SetupSpec KeyModel ArchiveModel ArchiverModel ArchiveSpec ArchiveProps OfflineModel OfflineSpec OfflineProps.
From Verif Require RemoteModel SetupProofs SetupProps ArchiveToy.
Local Open Scope nat_scope.

(** The bytes of stripe [st] of the sectors [data], in stripes of [n]. *)
Definition stripe_bytes {V} (enc : V -> list byte) (n : nat) (data : nat -> V) (st : nat) : list byte :=
  concat (map (fun x => enc (data x)) (seq (st * n) n)).

(** [data] is what the clients of this server get for the stripes it has. *)
Definition served {V} (enc : V -> list byte) (n : nat) (ss : RemoteModel.session) (o : RemoteModel.io) (data : nat -> V) : Prop :=
  forall st reply bytes rest,
    RemoteModel.remote_has_stripe (md_headers (RemoteModel.ss_meta ss)) st = Ok true ->
    RemoteModel.handle_read_stripe ss o (N.of_nat st) = Ok (reply, true) ->
    RemoteModel.client_fetch_stripe (Some (RemoteModel.ss_meta ss)) reply = RemoteModel.COk bytes rest ->
    stripe_bytes enc n data st = bytes.

(** [data] is what readers of this archive get for the stripes it has. *)
Definition archived {V} (enc : V -> list byte) (n : nat) (P : prims) (objects : store) (src : source) (data : nat -> V) : Prop :=
  forall st bytes, has_stripe src st = true -> fetch_stripe P objects src st (n * 512) = Ok bytes -> stripe_bytes enc n data st = bytes.

(** The new device's disk is empty. *)
Definition empty_disk {V} (enc : V -> list byte) (su : setup V) : Prop := forall x, enc (su_base su x) = repeat 0%N 512.

Lemma concat_same {A} (f g : A -> list byte) l : (forall x, In x l -> length (g x) = 512) -> (forall x, In x l -> length (f x) <= 512) ->
  concat (map f l) = concat (map g l) -> forall x, In x l -> f x = g x.
Proof.
  intros Hg Hf E.
  assert (L : forall l, (forall x, In x l -> length (g x) = 512) -> length (concat (map g l)) = length l * 512).
  { induction l0 as [|x l0 IH]; intros H; cbn [map concat length]; auto. rewrite app_length, (H x (or_introl eq_refl)), IH by (intros; apply H; now right). lia. }
  assert (M : forall l, (forall x, In x l -> length (f x) <= 512) -> length (concat (map f l)) <= length l * 512).
  { induction l0 as [|x l0 IH]; intros H; cbn [map concat length]; auto. rewrite app_length. pose proof (H x (or_introl eq_refl)).
    specialize (IH ltac:(intros; apply H; now right)). lia. }
  induction l as [|x l IH]; [now intros|]. cbn [map concat] in E.
  assert (Hg' : forall y, In y l -> length (g y) = 512) by (intros; apply Hg; now right).
  assert (Hf' : forall y, In y l -> length (f y) <= 512) by (intros; apply Hf; now right).
  pose proof (Hg x (or_introl eq_refl)) as Gx. pose proof (Hf x (or_introl eq_refl)) as Fx.
  assert (Lx : length (f x) = length (g x)).
  { pose proof (f_equal (@length _) E) as X. rewrite !app_length, (L l Hg'), Gx in X. pose proof (M l Hf'). lia. }
  assert (E1 : f x = g x) by (apply (f_equal (firstn (length (f x)))) in E; rewrite firstn_app, Nat.sub_diag, firstn_O, app_nil_r, firstn_all in E; rewrite Lx, firstn_app, Nat.sub_diag, firstn_O, app_nil_r, firstn_all in E; exact E).
  rewrite E1 in E. apply app_inv_head in E. intros y [<-|Hy]; [exact E1|]. now apply IH.
Qed.

Section Move.
Context {V : Type}.
Variable c : cfg V.
Variable base : nat -> V.
Variable h : nat -> N.
Variable enc : V -> list byte.
Hypothesis enc_len : forall v, length (enc v) = 512.
Hypothesis enc_inj : forall v w, enc v = enc w -> v = w.
Notation stopped es pb pm := (reached c base h (es ++ [ECrash pb pm])).
Notation past es pb pm := (history c base h (es ++ [ECrash pb pm])).

Lemma same_sectors n (d : disk V) contents st : stripe_of_disk enc n d st = stripe_bytes enc n contents st ->
  forall x, 0 < n -> x / n = st -> cur (d_hist d x) = Some (contents x).
Proof.
  intros E x Hn Hx. unfold stripe_of_disk, stripe_bytes in E.
  assert (G : (match cur (d_hist d x) with Some v => enc v | None => [] end) = enc (contents x)).
  { refine (concat_same _ (fun x => enc (contents x)) _ _ _ E x _); cbv beta.
    - auto.
    - intros y _. destruct (cur _); [rewrite enc_len; lia|cbn; lia].
    - apply in_seq. subst st. pose proof (Nat.div_mod x n ltac:(lia)). pose proof (Nat.mod_upper_bound x n ltac:(lia)). nia. }
  destruct (cur (d_hist d x)) as [v|]; [f_equal; auto|]. pose proof (enc_len (contents x)) as L. rewrite <- G in L. discriminate.
Qed.

Lemma stripe_ext n (f g : nat -> V) st : 0 < n -> (forall x, x / n = st -> enc (f x) = enc (g x)) -> stripe_bytes enc n f st = stripe_bytes enc n g st.
Proof.
  intros Hn H. unfold stripe_bytes. f_equal. apply map_ext_in. intros x Hx. apply H. apply in_seq in Hx.
  symmetry. apply (Nat.div_unique x n st (x - st * n)); nia.
Qed.
Lemma stripe_zero n (f : nat -> V) st : 0 < n -> (forall x, x / n = st -> enc (f x) = repeat 0%N 512) -> stripe_bytes enc n f st = repeat 0%N (n * 512).
Proof.
  intros Hn H. unfold stripe_bytes.
  assert (G : forall l, (forall x, In x l -> enc (f x) = repeat 0%N 512) -> concat (map (fun x => enc (f x)) l) = repeat 0%N (length l * 512)).
  { induction l as [|x l IH]; intros Hl; cbn [map concat length]; auto. rewrite (Hl x) by now left. rewrite IH by (intros; apply Hl; now right).
    rewrite <- repeat_app. f_equal. }
  rewrite G, seq_length; auto. intros x Hx. apply in_seq in Hx. apply H. symmetry. apply (Nat.div_unique x n st (x - st * n)); nia.
Qed.

(** Moving by server.  The new disk may be larger than the old one; what is added
    reads as zeros. *)
Theorem C71_clone : forall shift, well_configured c h -> OfflineSpec.whole_stripes c ->
  (track c = true -> fresh_disk enc c base h) -> ssc c = N.to_nat (2 ^ shift) -> (N.of_nat (target c) < 2 ^ 64)%N ->
  forall es pb pm configured ss, server_of c (stopped es pb pm) shift configured = Ok ss ->
  forall o, reads_files c enc (stopped es pb pm) shift o ->
  forall su data io umask p seen blank, su_source su = SrcRemote (RemoteModel.ss_meta ss) data -> served enc (ssc c) ss o data ->
  empty_disk enc su -> cipher_ok (su_cipher su) -> target c <= su_disk su / 512 ->
  init_metadata su io umask shift p = (seen, Ok tt) ->
  exists d c' h' contents,
    disk_behaviour (target c) (initial_contents c base h) (past es pb pm) d /\
    start su blank (content_of (hd p seen)) = Ok (c', h') /\
    (forall x, x < target c -> cur (d_hist d x) = Some (contents x)) /\
    (forall x, target c <= x < su_disk su / 512 -> enc (contents x) = repeat 0%N 512) /\
    forall es', exists d', disk_behaviour (su_disk su / 512) contents (history c' (su_base su) h' es') d'.
Proof.
  intros shift WC Wh Fr Hshift Htg es pb pm configured ss Es o Rf su data io umask p seen blank Esu Sv Em Ck Hsz Hi.
  assert (H17 : (shift <= 17)%N).
  { unfold init_metadata in Hi. destruct (negb _) eqn:E; [discriminate|]. unfold SHIFT_MIN, SHIFT_MAX in E. lia. }
  destruct (C70_server c base h enc shift WC Wh enc_len Fr Hshift H17 es pb pm configured ss Es o Rf) as (d & Hd & Hall).
  assert (Em' : md_shift (RemoteModel.ss_meta ss) = shift /\ length (md_headers (RemoteModel.ss_meta ss)) = nst c).
  { unfold server_of, RemoteModel.prepare_stripe_server in Es. destruct (_ && _); [discriminate|]. apply Ok_inj in Es. subst ss. cbn [RemoteModel.ss_meta].
    destruct (track c); unfold RemoteModel.mark_no_source_stripes_written; cbn [md_shift md_headers]; rewrite ?map_length; unfold headers_on_disk; rewrite map_length, seq_length; auto. }
  destruct Em' as [Esh Elen]. pose proof (wc_ssc _ _ WC) as Hssc.
  assert (U : source_usable (su_source su) shift (su_disk su / 512)).
  { rewrite Esu. cbn [source_usable]. split; [exact Esh|]. rewrite Elen. unfold OfflineSpec.whole_stripes in Wh. lia. }
  assert (F : source_fits (su_source su) (N.to_nat (2 ^ shift)) (su_disk su / 512)).
  { rewrite Esu. cbn [source_fits source_holds]. intros st [Hst _]. rewrite Elen in Hst. unfold OfflineSpec.whole_stripes in Wh. rewrite <- Hshift. nia. }
  destruct (SetupProps.C55_reads_as_source su io umask shift p seen blank Hi Ck U F) as (c' & h' & contents & St & Ov & Beh).
  exists d, c', h', contents. split; [exact Hd|]. split; [exact St|].
  rewrite <- Hshift in Ov.
  assert (Holds : forall st, source_holds (su_source su) (ssc c) st <-> RemoteModel.remote_has_stripe (md_headers (RemoteModel.ss_meta ss)) st = Ok true).
  { intros st. rewrite Esu. cbn [source_holds]. rewrite <- SetupProofs.remote_holds. destruct (RemoteModel.remote_has_stripe _ st) as [b| |]; split; intros; try discriminate; congruence. }
  split; [|split; [|exact Beh]].
  - intros x Hx. assert (Hst : x / ssc c < nst c) by (unfold OfflineSpec.whole_stripes in Wh; apply Nat.div_lt_upper_bound; lia).
    apply (same_sectors (ssc c) d contents (x / ssc c)); auto.
    assert (In_st : forall y, y / ssc c = x / ssc c -> y < su_disk su / 512).
    { intros y Hy. pose proof (Nat.div_mod y (ssc c) ltac:(lia)). pose proof (Nat.mod_upper_bound y (ssc c) ltac:(lia)). rewrite Hy in *. unfold OfflineSpec.whole_stripes in Wh. nia. }
    destruct (Hall _ Hst) as [(A & reply & B & C)|(A & B & C)].
    + specialize (C []). rewrite app_nil_r in C. rewrite <- (Sv _ _ _ _ A B C). apply stripe_ext; auto. intros y Hy.
      destruct (Ov y (In_st y Hy)) as [O1 _]. rewrite Hy in O1. specialize (O1 (proj2 (Holds _) A)). rewrite Esu in O1. cbn [source_sector] in O1. now rewrite O1.
    + rewrite C. symmetry. apply stripe_zero; auto. intros y Hy. destruct (Ov y (In_st y Hy)) as [_ O2]. rewrite O2; [apply Em|].
      rewrite Hy, Holds, A. discriminate.
  - intros x [Hx1 Hx2]. destruct (Ov x Hx2) as [_ O2]. rewrite O2; [apply Em|]. rewrite Esu. cbn [source_holds]. rewrite Elen. intros [Hst _].
    unfold OfflineSpec.whole_stripes in Wh. pose proof (Nat.div_mod x (ssc c) ltac:(lia)). pose proof (Nat.mod_upper_bound x (ssc c) ltac:(lia)). nia.
Qed.

(** Moving by archive, under the conditions of [C69_archive_partial] (they are not
    always met, see C69_refuted_untracked and C69_refuted_interrupted). *)
Theorem C71_restore : forall shift, well_configured c h -> OfflineSpec.whole_stripes c ->
  track c = true -> fresh_disk enc c base h -> none_half_written c h ->
  ssc c = N.to_nat (2 ^ shift) -> (N.of_nat (nst c) < 2 ^ 56)%N ->
  forall es pb pm, no_empty_writes es -> (forall st, st < nst c -> writes_succeeded c (past es pb pm) st) ->
  forall P o a, lawful P -> options_ok o -> no_collision P (archive_conf c enc (stopped es pb pm) o) ->
  archiving P (archive_conf c enc (stopped es pb pm) o) a -> a_phase a = PDone ->
  forall su src data io umask p seen blank, open_archive P (a_store a) (ao_kek o) = Ok src ->
  su_source su = SrcArchive src data -> archived enc (ssc c) P (a_store a) src data ->
  empty_disk enc su -> cipher_ok (su_cipher su) -> target c <= su_disk su / 512 ->
  init_metadata su io umask shift p = (seen, Ok tt) ->
  exists d c' h' contents,
    disk_behaviour (target c) (initial_contents c base h) (past es pb pm) d /\
    start su blank (content_of (hd p seen)) = Ok (c', h') /\
    (forall x, x < target c -> cur (d_hist d x) = Some (contents x)) /\
    (forall x, target c <= x < su_disk su / 512 -> enc (contents x) = repeat 0%N 512) /\
    forall es', exists d', disk_behaviour (su_disk su / 512) contents (history c' (su_base su) h' es') d'.
Proof.
  intros shift WC Wh Ht Fr Nh Hshift Hn es pb pm Ne Ws P o a L O NC A Hp su src data io umask p seen blank Eo Esu Sv Em Ck Hsz Hi.
  assert (H16 : (shift <= 16)%N).
  { unfold init_metadata in Hi. destruct (negb _) eqn:E; [discriminate|]. unfold SHIFT_MIN, SHIFT_MAX in E. lia. }
  assert (Hb : (2 ^ shift <= 2 ^ 16)%N) by (apply N.pow_le_mono_r; lia).
  assert (Hssc64 : (N.of_nat (ssc c) < 2 ^ 64)%N).
  { change (2 ^ 16)%N with 65536%N in Hb. change (2 ^ 64)%N with 18446744073709551616%N. lia. }
  destruct (C69_archive_partial c base h enc WC Wh enc_len Ht Fr Nh Hn Hssc64 es pb pm Ne P o a L O NC A Hp) as (src' & d & Eo' & Hd & Hall).
  rewrite Eo in Eo'. apply Ok_inj in Eo'. subst src'.
  pose proof (conf_ok c base h enc WC Wh enc_len Hn Hssc64 o O (es ++ [ECrash pb pm])) as K.
  destruct (C23_archive_roundtrip P _ L K NC a A Hp) as (src' & Eo' & Es & Fa). cbn [archive_conf ac_kek] in Eo'. rewrite Eo in Eo'. apply Ok_inj in Eo'. subst src'.
  cbn [archive_conf ac_ssc] in Es. pose proof (wc_ssc _ _ WC) as Hssc.
  assert (Holds : forall st, source_holds (su_source su) (ssc c) st <-> has_stripe src st = true).
  { intros st. rewrite Esu. cbn [source_holds]. symmetry. apply SetupProofs.has_stripe_spec. }
  assert (Bound : forall st, has_stripe src st = true -> st < nst c).
  { intros st Hs. apply (proj1 (Fa st)) in Hs. destruct Hs as [Hs _]. cbn [archive_conf ac_count] in Hs. now rewrite (count_whole c h WC Wh) in Hs. }
  assert (U : source_usable (su_source su) shift (su_disk su / 512)).
  { rewrite Esu. cbn [source_usable]. rewrite Es, Hshift. apply N2Nat.id. }
  assert (F : source_fits (su_source su) (N.to_nat (2 ^ shift)) (su_disk su / 512)).
  { assert (G : forall st, source_holds (su_source su) (ssc c) st -> (st + 1) * ssc c <= su_disk su / 512).
    { intros st Hs. apply Holds, Bound in Hs. unfold OfflineSpec.whole_stripes in Wh. nia. }
    rewrite <- Hshift. rewrite Esu in *. exact G. }
  destruct (SetupProps.C55_reads_as_source su io umask shift p seen blank Hi Ck U F) as (c' & h' & contents & St & Ov & Beh).
  exists d, c', h', contents. split; [exact Hd|]. split; [exact St|]. rewrite <- Hshift in Ov.
  split; [|split; [|exact Beh]].
  - intros x Hx. assert (Hst : x / ssc c < nst c) by (unfold OfflineSpec.whole_stripes in Wh; apply Nat.div_lt_upper_bound; lia).
    apply (same_sectors (ssc c) d contents (x / ssc c)); auto.
    assert (In_st : forall y, y / ssc c = x / ssc c -> y < su_disk su / 512).
    { intros y Hy. pose proof (Nat.div_mod y (ssc c) ltac:(lia)). pose proof (Nat.mod_upper_bound y (ssc c) ltac:(lia)). rewrite Hy in *. unfold OfflineSpec.whole_stripes in Wh. nia. }
    specialize (Hall _ Hst (Ws _ Hst)).
    destruct (has_stripe src (x / ssc c)) eqn:Hh.
    + rewrite <- (Sv _ _ Hh Hall). apply stripe_ext; auto. intros y Hy.
      destruct (Ov y (In_st y Hy)) as [O1 _]. rewrite Hy in O1. specialize (O1 (proj2 (Holds _) Hh)). rewrite Esu in O1. cbn [source_sector] in O1. now rewrite O1.
    + destruct (Fa (x / ssc c)) as (F1 & _ & F2). unfold stripe_size in F2. cbn [archive_conf ac_ssc] in F2. rewrite Nat2N.id in F2.
      rewrite F2 in Hall by (rewrite <- F1; congruence). apply Ok_inj in Hall. rewrite <- Hall. symmetry. apply stripe_zero; auto.
      intros y Hy. destruct (Ov y (In_st y Hy)) as [_ O2]. rewrite O2; [apply Em|]. rewrite Hy, Holds, Hh. discriminate.
  - intros x [Hx1 Hx2]. destruct (Ov x Hx2) as [_ O2]. rewrite O2; [apply Em|]. rewrite Holds. intros Hh. apply Bound in Hh.
    unfold OfflineSpec.whole_stripes in Wh. pose proof (Nat.div_mod x (ssc c) ltac:(lia)). pose proof (Nat.mod_upper_bound x (ssc c) ltac:(lia)). nia.
Qed.
End Move.

(** ** Non-vacuity: a disk of two stripes of 64 sectors, of which the first has a
    source of 7s; a sector of the second is written and flushed; the device is
    moved to a disk of three stripes. *)
Definition exm (tracking : bool) : cfg N := mk_cfg 64 2 508 128 64 true (fun _ => 7%N) 0%N tracking false false.
Definition exm_h (st : nat) : N := if st =? 0 then FLAG_HAS_SOURCE else 0%N.
Definition exm_base (x : nat) : N := 0%N.
Definition exm_es : list (event N) :=
  [EAdd 0 7 (RWrite 70 [5%N]); EWRecv; EWStartWrite; EMApply 2; EWMetaDone 2 true; EWMetaDone 3 true; EFront 0;
   EApply 1 0; EDone 1 true; EAdd 0 8 RFlush; EDone 4 true].
Definition exm_stopped : state N := reached (exm true) exm_base exm_h (exm_es ++ [ECrash (fun _ => 0) (fun _ => 0)]).
Definition exm_io : RemoteModel.io :=
  RemoteModel.mk_io (fun i _ _ => Some (disk_stripe (exm true) exo_enc exm_stopped (N.to_nat (i / 64)))) (fun i _ => Some (source_stripe (exm true) exo_enc (N.to_nat i))).
Definition exm_session : RemoteModel.session := RemoteModel.mk_session (current_metadata 6 [4; 2]%N) true.
Definition exm_data (x : nat) : N := if x <? 64 then 7%N else if x =? 70 then 5%N else 0%N.
Definition exm_new : setup N :=
  mk_setup (192 * 512) (fun _ => 0%N) (SrcRemote (RemoteModel.ss_meta exm_session) exm_data) false true None.

Definition exm_started (file : list byte) (x : nat) : res N :=
  let! r := start exm_new 0%N file in Ok (initial_contents (fst r) (su_base exm_new) (snd r) x).

Example C71_nonvacuous :
  well_configured (exm true) exm_h /\ OfflineSpec.whole_stripes (exm true) /\ fresh_disk exo_enc (exm true) exm_base exm_h /\
  (forall v w, exo_enc v = exo_enc w -> v = w) /\
  server_of (exm true) exm_stopped 6 true = Ok exm_session /\ reads_files (exm true) exo_enc exm_stopped 6 exm_io /\
  served exo_enc 64 exm_session exm_io exm_data /\ empty_disk exo_enc exm_new /\ cipher_ok (su_cipher exm_new) /\
  snd (init_metadata exm_new (fun _ => true) 18 6 NAbsent) = Ok tt /\
  map (exm_started (content_of (hd NAbsent (fst (init_metadata exm_new (fun _ => true) 18 6 NAbsent))))) [0; 63; 64; 70; 71; 128] =
    [Ok 7; Ok 7; Ok 0; Ok 5; Ok 0; Ok 0]%N.
Proof.
  split; [|split; [reflexivity|split; [|split; [|split; [vm_compute; reflexivity|split; [|split; [|split; [|split; [exact I|split; [vm_compute; reflexivity|]]]]]]]]]].
  - constructor; cbn [exm ssc hps nst target src full_stripes has_image]; try lia.
    + unfold div_ceil. cbn. lia.
    + intros [|[|st]] Hst; [discriminate|discriminate|lia].
  - intros x _ _ _. reflexivity.
  - intros v w E. exact (f_equal (hd 0%N) E).
  - intros st Hst i header. cbn [exm nst] in Hst. unfold exm_io, RemoteModel.io_dev, RemoteModel.io_src, i.
    change (2 ^ 6)%N with 64%N. rewrite N.div_mul by lia. rewrite Nat2N.id. auto.
  - intros st reply bytes rest Hs Hr Hc.
    assert (Go : forall d, Ok (RemoteModel.data_reply (RemoteModel.ss_meta exm_session) (Some d)) = Ok (reply, true) -> d = stripe_bytes exo_enc 64 exm_data st ->
      stripe_bytes exo_enc 64 exm_data st = bytes).
    { intros d E Ed. apply Ok_inj in E. apply (f_equal fst) in E. cbn [fst] in E. rewrite <- E in Hc.
      pose proof (data_reply_client 6 [4; 2]%N d []) as X. rewrite app_nil_r in X. change (current_metadata 6 [4; 2]%N) with (RemoteModel.ss_meta exm_session) in X. rewrite X in Hc; [injection Hc as E1 _; congruence| |lia].
      rewrite Ed. unfold stripe_bytes. rewrite OfflineProofs.concat_length with (n := 512); [now rewrite seq_length|]. intros x _. apply repeat_length. }
    destruct st as [|[|st]].
    + apply (Go (source_stripe (exm true) exo_enc 0)); [rewrite <- Hr; reflexivity|]. unfold source_stripe, stripe_bytes. apply (f_equal (@concat _)), map_ext_in.
      intros x Hx. apply in_seq in Hx. unfold exm_data. cbn [exm ssc] in Hx. destruct (Nat.ltb_spec x 64); [reflexivity|lia].
    + apply (Go (disk_stripe (exm true) exo_enc exm_stopped 1)); [rewrite <- Hr; reflexivity|]. unfold disk_stripe, stripe_bytes, sector_bytes. apply (f_equal (@concat _)), map_ext_in.
      assert (E : map (fun x => cur (bh exm_stopped x)) (seq 64 64) = map (fun x => Some (exm_data x)) (seq 64 64)) by (vm_compute; reflexivity).
      intros x Hx. change (In x (seq 64 64)) in Hx.
      pose proof (proj1 map_ext_in_iff E x Hx) as Ex. cbv beta in Ex.
      now rewrite Ex.
    + discriminate.
  - intros x. reflexivity.
  - vm_compute. reflexivity.
Qed.

(** The same device moved by archive. *)
Definition exm_archive : aconf := archive_conf (exm true) exo_enc exm_stopped exo_options.
Definition exm_restored (src : source) : setup N := mk_setup (192 * 512) (fun _ => 0%N) (SrcArchive src exm_data) false true None.
Lemma exm_contents st : st < 2 -> contents exm_archive st = stripe_bytes exo_enc 64 exm_data st.
Proof.
  assert (Hh : ac_headers exm_archive = [4; 2]%N) by (vm_compute; reflexivity). intros Hst. unfold contents. rewrite Hh.
  destruct st as [|[|st]]; [| |lia]; cbn [nth_error]; [change (N.testbit 4 1 || N.testbit 4 0) with false|change (N.testbit 2 1 || N.testbit 2 0) with true]; cbv iota.
  - change (ac_src exm_archive 0) with (source_stripe (exm true) exo_enc 0). unfold source_stripe, stripe_bytes. apply (f_equal (@concat _)), map_ext_in.
    intros x Hx. apply in_seq in Hx. unfold exm_data. cbn [exm ssc] in Hx. destruct (Nat.ltb_spec x 64); [reflexivity|lia].
  - change (ac_dev exm_archive 1) with (disk_stripe (exm true) exo_enc exm_stopped 1). unfold disk_stripe, stripe_bytes, sector_bytes. apply (f_equal (@concat _)), map_ext_in.
    assert (E : map (fun x => cur (bh exm_stopped x)) (seq 64 64) = map (fun x => Some (exm_data x)) (seq 64 64)) by (vm_compute; reflexivity).
    intros x Hx. change (In x (seq 64 64)) in Hx. pose proof (proj1 map_ext_in_iff E x Hx) as Ex. cbv beta in Ex. now rewrite Ex.
Qed.
Lemma exm_distinct : no_collision ArchiveToy.toy_prims exm_archive.
Proof.
  assert (H : forallb (fun st => forallb (fun st' =>
     match stripe_object ArchiveToy.toy_prims (ac_cipher exm_archive) (ac_comp exm_archive) (ac_ssc exm_archive) st (contents exm_archive st),
           stripe_object ArchiveToy.toy_prims (ac_cipher exm_archive) (ac_comp exm_archive) (ac_ssc exm_archive) st' (contents exm_archive st') with
     | Ok o, Ok o' => bytes_eqb o o' || negb (bytes_eqb (sha ArchiveToy.toy_prims o) (sha ArchiveToy.toy_prims o'))
     | _, _ => true
     end) [0; 1]) [0; 1] = true) by (vm_compute; reflexivity).
  assert (C2 : ac_count exm_archive = 2) by (vm_compute; reflexivity).
  intros st st' o o' (D & _) (D' & _) E E' Hs. rewrite forallb_forall in H.
  assert (G : forall i, i < ac_count exm_archive -> In i [0; 1]) by (intros [|[|i]] Hi; [now left|right; now left|lia]).
  specialize (H st (G _ D)). rewrite forallb_forall in H. specialize (H st' (G _ D')).
  rewrite E, E' in H. apply orb_true_iff in H. destruct H as [H|H].
  - now apply bytes_eqb_spec.
  - rewrite Hs, bytes_eqb_refl in H. discriminate.
Qed.
Example C71_restore_nonvacuous :
  track (exm true) = true /\ none_half_written (exm true) exm_h /\ no_empty_writes exm_es /\
  (forall st, writes_succeeded (exm true) (history (exm true) exm_base exm_h (exm_es ++ [ECrash (fun _ => 0) (fun _ => 0)])) st) /\
  lawful ArchiveToy.toy_prims /\ options_ok exo_options /\ no_collision ArchiveToy.toy_prims exm_archive /\
  exists a src seen, archiving ArchiveToy.toy_prims exm_archive a /\ a_phase a = PDone /\
    open_archive ArchiveToy.toy_prims (a_store a) (ao_kek exo_options) = Ok src /\
    archived exo_enc 64 ArchiveToy.toy_prims (a_store a) src exm_data /\ empty_disk exo_enc (exm_restored src) /\
    init_metadata (exm_restored src) (fun _ => true) 18 6 NAbsent = (seen, Ok tt).
Proof.
  destruct C71_nonvacuous as (W1 & W2 & W3 & _).
  split; [reflexivity|]. split; [intros [|[|st]] Hst; [discriminate|discriminate|cbn in Hst; lia]|].
  split; [|split; [|split; [exact ArchiveToy.toy_lawful|split; [exact exo_options_ok|split; [exact exm_distinct|]]]]].
  - intros q id off data H. cbn in H. repeat destruct H as [H|H]; try discriminate; try contradiction. injection H as <- <- <- <-. discriminate.
  - intros st. assert (E : history (exm true) exm_base exm_h (exm_es ++ [ECrash (fun _ => 0) (fun _ => 0)]) =
      [TIssue 1 0 7 (RWrite 70 [5%N]); TDone 1 0 7 true []; TIssue 4 0 8 RFlush; TDone 4 0 8 true []; TCrash]) by (vm_compute; reflexivity).
    rewrite E. clear. intros n q id off data H _. repeat destruct H as [H|H]; try discriminate; try contradiction.
    injection H as <- <- <- <- <-. exists []. right. now left.
  - assert (Hf : exists s, archiving ArchiveToy.toy_prims exm_archive s /\ a_phase s = PDone).
    { apply (finished_ok _ [AStart; AFill 0; AFetched 0 true; AStart; AFill 1; AFetched 1 true; AUploaded 0 true; AUploaded 0 true; ADrained; AUploaded 0 true; AUploaded 0 true]). vm_compute. reflexivity. }
    destruct Hf as (a & A & Hp).
    assert (K : aconf_ok exm_archive).
    { apply (conf_ok (exm true) exm_base exm_h exo_enc W1 W2 (fun v => repeat_length v 512) eq_refl eq_refl exo_options exo_options_ok). }
    destruct (C23_archive_roundtrip _ exm_archive ArchiveToy.toy_lawful K exm_distinct a A Hp) as (src & Eo & Es & Fa).
    assert (E1 : ac_count exm_archive = 2) by (vm_compute; reflexivity).
    unfold stripe_size in Fa. change (ac_ssc exm_archive) with (N.of_nat 64) in Fa. rewrite Nat2N.id in Fa.
    destruct (SetupProps.C55_init_succeeds (exm_restored src) (fun _ => true) 18 6 NAbsent) as (seen & Hi); auto.
    + exact I.
    + lia.
    + change (su_disk (exm_restored src)) with (192 * 512). rewrite Nat.div_mul by lia. reflexivity.
    + exists a, src, seen. split; [exact A|]. split; [exact Hp|]. split; [exact Eo|]. split; [|split; [intros x; reflexivity|exact Hi]].
      intros st bytes Hs Hb. destruct (Fa st) as (F1 & F2 & _). apply F1 in Hs. rewrite (F2 Hs) in Hb. apply Ok_inj in Hb. rewrite <- Hb.
      symmetry. apply exm_contents. destruct Hs as [Hs _]. lia.
Qed.

Print Assumptions C71_clone.
Print Assumptions C71_restore.
