(** Properties C69 and C70: the archive command and the stripe server on a device
    that has stopped. *)
From Coq Require Import List Arith NArith ZArith Bool Lia ZifyBool ZifyNat ZifyN.
Import ListNotations.
From Verif Require Import Base BaseFacts DiskSpec LazyState MetadataModel MetadataSpec LazyModel LazySpec LazyProofs
  KeyModel ArchiveModel ArchiverModel ArchiveSpec ArchiveProps ArchiveSourceModel ExportProps OfflineModel OfflineSpec OfflineProofs.
From Verif Require RemoteModel RemoteSpec RemoteProofs WireModel ArchiveToy.
Local Open Scope nat_scope.

(** Options of the archive command that make sense: sizes of keys and nonces. *)
Record options_ok (o : archive_options) : Prop := {
  oo_comp : comp_typed (ao_comp o);
  oo_hmac : length (ao_hmac_key o) = 32 /\ bytes_ok (ao_hmac_key o);
  oo_nonces : length (ao_nonce_key o) = 12 /\ length (ao_nonce_hmac o) = 12 /\ bytes_ok (ao_nonce_key o) /\ bytes_ok (ao_nonce_hmac o);
  oo_cipher : match ao_cipher o with None => True | Some (a, b) => length a = 32 /\ length b = 32 /\ bytes_ok a /\ bytes_ok b end;
  oo_kek : match k_method (ao_kek o) with
           | MNone => True
           | MAes256Gcm => exists key auth, k_key (ao_kek o) = Some key /\ k_auth (ao_kek o) = Some auth /\ length key = 32
           end
}.

Lemma hf_fetched n : has_flag FLAG_FETCHED n = N.testbit n 0.
Proof. exact (RemoteProofs.flag_testbit n 0). Qed.
Lemma hf_written n : has_flag FLAG_WRITTEN n = N.testbit n 1.
Proof. exact (RemoteProofs.flag_testbit n 1). Qed.
Lemma hf_source n : has_flag FLAG_HAS_SOURCE n = N.testbit n 2.
Proof. exact (RemoteProofs.flag_testbit n 2). Qed.

Section Props.
Context {V : Type}.
Variable c : cfg V.
Variable base : nat -> V.
Variable h : nat -> N.
Variable enc : V -> list byte.

(** The device after a history [es] and a stop: a crash that loses what it may lose,
    of which an orderly exit (nothing is lost) is a case. *)
Notation stopped es pb pm := (reached c base h (es ++ [ECrash pb pm])).
Notation past es pb pm := (history c base h (es ++ [ECrash pb pm])).

Lemma count_whole : well_configured c h -> whole_stripes c -> div_ceil (target c) (ssc c) = nst c.
Proof.
  intros WC Wh. unfold div_ceil. rewrite Wh. pose proof (wc_ssc _ _ WC). 
  destruct (Nat.eqb_spec (ssc c) 0); [lia|]. rewrite Nat.div_add_l by lia. rewrite Nat.div_small by lia. lia.
Qed.

Lemma nth_header (s : state V) st : st < nst c -> nth_error (headers_on_disk c s) st = Some (loaded_headers c (mh s) st).
Proof. intros H. unfold headers_on_disk. apply map_nth_error. rewrite (nth_error_nth' _ 0) by (rewrite seq_length; auto). rewrite seq_nth by auto. reflexivity. Qed.

Lemma conf_ok : well_configured c h -> whole_stripes c -> (forall v, length (enc v) = 512) ->
  (N.of_nat (nst c) < 2 ^ 56)%N -> (N.of_nat (ssc c) < 2 ^ 64)%N -> forall o, options_ok o ->
  forall es, aconf_ok (archive_conf c enc (reached c base h es) o).
Proof.
  intros WC Wh He H1 H2 o [O1 [O2 O2'] (O3 & O4 & O5 & O6) O7 O8] es. pose proof (wc_ssc _ _ WC). constructor; cbn [archive_conf ac_count ac_headers ac_ssc ac_dev ac_src ac_comp ac_hmac_key ac_nonce_key ac_nonce_hmac ac_cipher ac_kek]; unfold stripe_size; cbn [archive_conf ac_ssc]; rewrite ?(count_whole WC Wh), ?Nat2N.id; auto.
  - unfold headers_on_disk. rewrite map_length, seq_length. lia.
  - lia.
  - intros st _. apply disk_stripe_length; auto.
  - intros st _. apply source_stripe_length; auto.
  - destruct (ao_cipher o) as [[a b]|]; tauto.
  - destruct (ao_cipher o) as [[a b]|]; tauto.
Qed.

(** ** C69 *)

(** Archiving a stopped device that tracks writes, all the writes of which to stripe
    [st] were reported successful: the archive gives for [st] exactly what an
    ordinary disk with the guest's history holds (after a crash: may hold).
    Missing: stripes with failed or interrupted writes, and devices that do not
    track writes; for both the claim is false, see below. *)
Theorem C69_archive_partial : well_configured c h -> whole_stripes c -> (forall v, length (enc v) = 512) ->
  track c = true -> fresh_disk enc c base h -> none_half_written c h ->
  (N.of_nat (nst c) < 2 ^ 56)%N -> (N.of_nat (ssc c) < 2 ^ 64)%N ->
  forall es pb pm, no_empty_writes es ->
  forall P o a, lawful P -> options_ok o -> no_collision P (archive_conf c enc (stopped es pb pm) o) ->
  archiving P (archive_conf c enc (stopped es pb pm) o) a -> a_phase a = PDone ->
  exists src d, open_archive P (a_store a) (ao_kek o) = Ok src /\
    disk_behaviour (target c) (initial_contents c base h) (past es pb pm) d /\
    forall st, st < nst c -> writes_succeeded c (past es pb pm) st ->
      fetch_stripe P (a_store a) src st (ssc c * 512) = Ok (stripe_of_disk enc (ssc c) d st).
Proof.
  intros WC Wh He Ht Fr Nh B1 B2 es pb pm Ne P o a L O NC A Hp.
  pose proof (conf_ok WC Wh He B1 B2 o O (es ++ [ECrash pb pm])) as K.
  destruct (C23_archive_roundtrip P _ L K NC a A Hp) as (src & Eo & Fa). cbn [archive_conf ac_kek] in Eo.
  destruct (is_a_disk c base h WC (es ++ [ECrash pb pm])) as (d & Hd & Hc).
  exists src, d. split; [exact Eo|]. split; [exact Hd|]. intros st Hst Ws.
  destruct Fa as [_ Fa]. destruct (Fa st) as (_ & F1 & F2). clear Fa.
  unfold stripe_size in F1, F2. cbn [archive_conf ac_ssc] in F1, F2. rewrite Nat2N.id in F1, F2.
  rewrite (guest_stripe c base h WC enc es pb pm d st Wh Hst Hc).
  set (s := stopped es pb pm) in *. pose proof (nth_header s st Hst) as Hn.
  pose proof (settled c base h WC es pb pm st Hst Ne) as Se. fold s in Se.
  rewrite !hf_written, !hf_source, !hf_fetched in *. cbv zeta in Se. rewrite hf_written, hf_source, hf_fetched in Se.
  assert (Se' := Se (fun A B => Nh st Hst A (eq_trans (eq_sym (hf_source _)) B)) Ws). clear Se.
  set (H := loaded_headers c (mh s) st) in *.
  unfold has_data, contents in F1, F2. cbn [archive_conf ac_count ac_headers ac_dev ac_src] in F1, F2. rewrite Hn in F1, F2. rewrite (count_whole WC Wh) in F1, F2.
  destruct (N.testbit H 2) eqn:E2.
  - rewrite F1 by (split; [exact Hst|exists H; auto]). cbn [andb].
    destruct (N.testbit H 0) eqn:E0; cbn [negb]; [rewrite orb_true_r; reflexivity|].
    destruct (N.testbit H 1) eqn:E1; [|reflexivity]. discriminate (Se' eq_refl eq_refl).
  - cbn [andb]. destruct (N.testbit H 1) eqn:E1.
    + rewrite F1 by (split; [exact Hst|exists H; auto]). reflexivity.
    + rewrite F2.
      * f_equal. symmetry. apply (unwritten_zero c base h WC enc es pb pm st Ht Wh Fr Hst); fold s; fold H; [rewrite hf_written|rewrite hf_source]; auto.
      * intros (_ & x & Ex & D). injection Ex as <-. destruct D; congruence.
Qed.

(** ** C70 *)

(** What the server reads: the files of the stopped device, and the source for the
    stripes that are not fetched (when there are none, there need not be a source). *)
Definition reads_files (s : state V) (shift : N) (o : RemoteModel.io) : Prop :=
  forall st, st < nst c ->
    let i := N.of_nat st in let header := nth st (headers_on_disk c s) 0%N in
    RemoteModel.io_dev o (i * 2 ^ shift) (2 ^ shift) (N.to_nat (512 * 2 ^ shift)) = Some (disk_stripe c enc s st) /\
    (N.testbit header 2 = true -> N.testbit header 0 = false ->
     RemoteModel.io_src o i (N.to_nat (512 * 2 ^ shift)) = Some (source_stripe c enc st)).

Lemma data_reply_client shift hs d more : length d = N.to_nat (512 * 2 ^ shift) -> (shift <= 17)%N ->
  RemoteModel.client_fetch_stripe (Some (current_metadata shift hs))
    (fst (RemoteModel.data_reply (current_metadata shift hs) (Some d)) ++ more) = RemoteModel.COk d more.
Proof.
  intros L Hs. unfold RemoteModel.data_reply, RemoteModel.client_fetch_stripe, RemoteModel.cread. cbn [fst].
  pose proof (RemoteProofs.pow_shift_bound shift Hs) as B.
  rewrite <- app_comm_cons. change (RemoteModel.STATUS_OK :: (le_bytes 8 (MetadataModel.stripe_size (current_metadata shift hs)) ++ d) ++ more)
    with ([RemoteModel.STATUS_OK] ++ (le_bytes 8 (MetadataModel.stripe_size (current_metadata shift hs)) ++ d) ++ more).
  rewrite RemoteProofs.read_exact_app by reflexivity. cbn [nth].
  change (RemoteModel.STATUS_OK =? RemoteModel.STATUS_OK)%N with true. cbv iota.
  rewrite <- app_assoc. rewrite RemoteProofs.read_exact_app by apply le_bytes_length.
  rewrite RemoteProofs.ss_current. rewrite le_val_le_bytes by (change (256 ^ N.of_nat 8)%N with 18446744073709551616%N; lia).
  rewrite N.eqb_refl. cbn [negb]. rewrite RemoteProofs.read_exact_app by exact L. reflexivity.
Qed.

(** Serving a stopped device, whether it tracks writes or not and whatever happened
    to its last writes: the server answers for every stripe with exactly what an
    ordinary disk with the guest's history holds, and its client returns that; the
    stripes that it reports as without data hold zeros. *)
Theorem C70_server : forall shift, well_configured c h -> whole_stripes c -> (forall v, length (enc v) = 512) ->
  (track c = true -> fresh_disk enc c base h) -> ssc c = N.to_nat (2 ^ shift) -> (shift <= 17)%N ->
  forall es pb pm configured ss, server_of c (stopped es pb pm) shift configured = Ok ss ->
  forall o, reads_files (stopped es pb pm) shift o ->
  exists d, disk_behaviour (target c) (initial_contents c base h) (past es pb pm) d /\
    forall st, st < nst c ->
      let stripe := stripe_of_disk enc (ssc c) d st in
      (RemoteModel.remote_has_stripe (md_headers (RemoteModel.ss_meta ss)) st = Ok true /\
       exists reply, RemoteModel.handle_read_stripe ss o (N.of_nat st) = Ok (reply, true) /\
         forall more, RemoteModel.client_fetch_stripe (Some (RemoteModel.ss_meta ss)) (reply ++ more) = RemoteModel.COk stripe more) \/
      (RemoteModel.remote_has_stripe (md_headers (RemoteModel.ss_meta ss)) st = Ok false /\
       RemoteModel.handle_read_stripe ss o (N.of_nat st) = Ok ([2%N], true) /\
       stripe = repeat 0%N (ssc c * 512)).
Proof.
  intros shift WC Wh He Fr Hshift Hs17 es pb pm configured ss Es o Rf.
  destruct (is_a_disk c base h WC (es ++ [ECrash pb pm])) as (d & Hd & Hc). exists d. split; [exact Hd|]. intros st Hst stripe.
  destruct (Rf st Hst) as [Od Os]. clear Rf.
  set (s := stopped es pb pm) in *.
  unfold server_of, RemoteModel.prepare_stripe_server in Es. destruct (_ && _); [discriminate|]. apply Ok_inj in Es.
  set (hs' := if track c then headers_on_disk c s else map (fun x => if (N.land x FLAG_HAS_SOURCE =? 0)%N then N.lor x FLAG_WRITTEN else x) (headers_on_disk c s)).
  assert (Ess : ss = RemoteModel.mk_session (current_metadata shift hs') true).
  { rewrite <- Es. unfold hs'. destruct (track c); reflexivity. }
  clear Es. set (H := loaded_headers c (mh s) st).
  pose proof (nth_header s st Hst) as Hn0. fold H in Hn0.
  rewrite (nth_error_nth _ _ 0%N Hn0) in Os.
  set (H' := if track c then H else if (N.land H FLAG_HAS_SOURCE =? 0)%N then N.lor H FLAG_WRITTEN else H).
  assert (Hn : nth_error hs' st = Some H').
  { unfold hs', H'. destruct (track c); [exact Hn0|]. erewrite map_nth_error; [reflexivity|exact Hn0]. }
  assert (Bits : N.testbit H' 2 = N.testbit H 2 /\ N.testbit H' 0 = N.testbit H 0 /\
     N.testbit H' 1 = N.testbit H 1 || (negb (track c) && negb (N.testbit H 2))).
  { unfold H'. destruct (track c); [cbn [negb andb]; rewrite orb_false_r; auto|]. cbn [negb andb].
    pose proof (hf_source H) as Eh. unfold has_flag in Eh.
    destruct (N.land H FLAG_HAS_SOURCE =? 0)%N; cbn [negb] in Eh; rewrite <- Eh; cbn [negb]; [|rewrite orb_false_r; auto].
    rewrite !N.lor_spec, <- Eh. change (N.testbit FLAG_WRITTEN 2) with false. change (N.testbit FLAG_WRITTEN 0) with false. change (N.testbit FLAG_WRITTEN 1) with true.
    rewrite !orb_false_r. auto. }
  assert (Lh : length hs' = nst c).
  { unfold hs', headers_on_disk. destruct (track c); rewrite ?map_length, seq_length; reflexivity. }
  assert (Hx : index hs' st = Ok H').
  { rewrite (index_ok _ _ 0%N) by lia. f_equal. now apply nth_error_nth. }
  pose proof (guest_stripe c base h WC enc es pb pm d st Wh Hst Hc) as G. fold s in G. cbv zeta in G. fold H in G. fold stripe in G.
  rewrite hf_source, hf_fetched in G.
  assert (Ln : N.to_nat (512 * 2 ^ shift) = ssc c * 512) by lia.
  rewrite Ess. cbn [RemoteModel.ss_meta]. change (md_headers (current_metadata shift hs')) with hs'.
  destruct Bits as (B2 & B0 & B1).
  assert (Hrs : RemoteModel.remote_has_stripe hs' st = Ok (N.testbit H' 1 || N.testbit H' 2)).
  { unfold RemoteModel.remote_has_stripe. destruct (Nat.leb_spec (length hs') st); [lia|]. rewrite Hx. cbn [bindr].
    rewrite RemoteProofs.flag_written, RemoteProofs.flag_has_source. reflexivity. }
  assert (Hr : RemoteModel.handle_read_stripe (RemoteModel.mk_session (current_metadata shift hs') true) o (N.of_nat st) =
    if N.testbit H' 2 && negb (N.testbit H' 0) then Ok (RemoteModel.data_reply (current_metadata shift hs') (RemoteModel.io_src o (N.of_nat st) (N.to_nat (512 * 2 ^ shift))))
    else if N.testbit H' 1 || (N.testbit H' 2 && N.testbit H' 0) then Ok (RemoteModel.data_reply (current_metadata shift hs') (RemoteModel.io_dev o (N.of_nat st * 2 ^ shift) (2 ^ shift) (N.to_nat (512 * 2 ^ shift))))
    else Ok ([2%N], true)).
  { unfold RemoteModel.handle_read_stripe. cbn [RemoteModel.ss_meta RemoteModel.ss_source]. unfold stripe_count, RemoteModel.stripe_len.
    rewrite RemoteProofs.ss_current, RemoteProofs.ssc_current. change (md_headers (current_metadata shift hs')) with hs'.
    destruct (N.leb_spec (N.of_nat (length hs')) (N.of_nat st)); [lia|].
    unfold RemoteModel.stripe_not_fetched, RemoteModel.stripe_has_data. change (md_headers (current_metadata shift hs')) with hs'. rewrite Nat2N.id, Hx. cbn [bindr].
    rewrite RemoteProofs.flag_written, RemoteProofs.flag_has_source, RemoteProofs.flag_fetched. unfold RemoteSpec.written, RemoteSpec.has_source, RemoteSpec.fetched.
    clear B1. destruct (N.testbit H' 2 && negb (N.testbit H' 0)); [reflexivity|].
    pose proof (RemoteProofs.pow_shift_bound shift Hs17). rewrite (N.mod_small (2 ^ shift) (2 ^ 32)) by (change (2 ^ 32)%N with 4294967296%N; lia).
    destruct (N.testbit H' 1 || N.testbit H' 2 && N.testbit H' 0); reflexivity. }
  rewrite Hrs, Hr. clear Hrs Hr. rewrite B2, B0 in *.
  assert (Send : forall b, stripe = b -> length b = ssc c * 512 ->
     exists reply, Ok (RemoteModel.data_reply (current_metadata shift hs') (Some b)) = Ok (reply, true) /\
         forall more, RemoteModel.client_fetch_stripe (Some (current_metadata shift hs')) (reply ++ more) = RemoteModel.COk stripe more).
  { intros b -> L. exists (fst (RemoteModel.data_reply (current_metadata shift hs') (Some b))). split; [reflexivity|]. intros more. apply data_reply_client; [lia|auto]. }
  destruct (N.testbit H 2) eqn:E2; cbn [andb orb negb] in *.
  - left. rewrite orb_true_r. split; [reflexivity|]. destruct (N.testbit H 0) eqn:E0; cbn [negb] in *.
    + rewrite orb_true_r, Od. apply Send; [exact G|]. apply disk_stripe_length; auto.
    + rewrite Os by auto. apply Send; [exact G|]. apply source_stripe_length; auto.
  - rewrite !orb_false_r. rewrite B1. destruct (N.testbit H 1) eqn:E1; cbn [orb].
    + left. split; [reflexivity|]. rewrite Od. apply Send; [exact G|]. apply disk_stripe_length; auto.
    + destruct (track c) eqn:Et; cbn [negb andb].
      * right. split; [reflexivity|]. split; [reflexivity|]. rewrite G.
        apply (unwritten_zero c base h WC enc es pb pm st Et Wh (Fr eq_refl) Hst); fold s; fold H; [rewrite hf_written|rewrite hf_source]; auto.
      * left. split; [reflexivity|]. rewrite Od. apply Send; [exact G|]. apply disk_stripe_length; auto.
Qed.

(** The server starts on a stopped device when the device's source is configured, or
    when no stripe still depends on it. *)
Theorem C70_starts : forall es pb pm shift configured,
  (exists ss, server_of c (stopped es pb pm) shift configured = Ok ss) <->
  configured = true \/ forall x, In x (headers_on_disk c (stopped es pb pm)) -> N.testbit x 2 = true -> N.testbit x 0 = true.
Proof.
  intros es pb pm shift configured. unfold server_of, RemoteModel.prepare_stripe_server, has_fetched_all_stripes. cbn [md_headers].
  set (l := headers_on_disk c (stopped es pb pm)).
  assert (E : forallb (fun x => (N.land x FLAG_HAS_SOURCE =? 0)%N || negb (N.land x FLAG_FETCHED =? 0)%N) l = true <->
    forall x, In x l -> N.testbit x 2 = true -> N.testbit x 0 = true).
  { rewrite forallb_forall. split; intros H x Hx; specialize (H x Hx).
    - rewrite <- hf_source, <- hf_fetched. unfold has_flag. destruct (N.land x FLAG_HAS_SOURCE =? 0)%N; [discriminate|]. auto.
    - rewrite <- hf_source, <- hf_fetched in H. unfold has_flag in H. destruct (N.land x FLAG_HAS_SOURCE =? 0)%N; [reflexivity|]. auto. }
  rewrite <- E. destruct (forallb _ l), configured; cbn [negb andb]; split; try (intros _; eexists; reflexivity); auto.
  - intros [ss Hs]. discriminate.
  - intros [H|H]; discriminate.
Qed.
End Props.

(** ** The two ways to lose data in C69 *)

(** A device of two one-sector stripes, the first of which has a source holding 7. *)
Definition exo (tracking : bool) : cfg N := mk_cfg 1 2 508 2 1 true (fun _ => 7%N) 0%N tracking false false.
Definition exo_h (st : nat) : N := if st =? 0 then FLAG_HAS_SOURCE else 0%N.
Definition exo_base (x : nat) : N := if x =? 0 then 3%N else 0%N.
Definition exo_enc (v : N) : list byte := repeat v 512.
Definition exo_options : archive_options :=
  mk_archive_options None CompNone (mk_kek MAes256Gcm (Some (repeat 7%N 32)) (Some [1; 2; 3]%N)) (repeat 9%N 32) (repeat 4%N 12) (repeat 5%N 12).
Notation exo_stop := (ECrash (fun _ => 0) (fun _ => 0)) (only parsing).

Lemma exo_ok tracking : well_configured (exo tracking) exo_h /\ whole_stripes (exo tracking) /\ (forall v, length (exo_enc v) = 512) /\
  fresh_disk exo_enc (exo tracking) exo_base exo_h /\ none_half_written (exo tracking) exo_h.
Proof.
  split; [|split; [reflexivity|split; [intros v; apply repeat_length|split]]].
  - constructor; cbn [exo ssc hps nst target src full_stripes has_image]; try lia.
    + unfold div_ceil. cbn. lia.
    + intros [|[|st]] Hst; [discriminate|discriminate|lia].
  - intros [|x] _ H _; [discriminate|reflexivity].
  - intros [|[|st]] Hst; [discriminate|discriminate|cbn in Hst; lia].
Qed.
Lemma exo_options_ok : options_ok exo_options.
Proof.
  constructor; cbn [exo_options ao_comp ao_hmac_key ao_nonce_key ao_nonce_hmac ao_cipher ao_kek k_method k_key k_auth]; auto.
  - exact I.
  - split; [reflexivity|apply (bytes_ok_repeat 32); reflexivity].
  - split; [reflexivity|]. split; [reflexivity|]. split; apply (bytes_ok_repeat 12); reflexivity.
  - exists (repeat 7%N 32), [1; 2; 3]%N. auto.
Qed.
Lemma exo_single (P : prims) (a : aconf) : ac_count a = 2 -> (forall h, nth_error (ac_headers a) 1 = Some h -> h = 0%N) -> no_collision P a.
Proof.
  intros Ec E1 st st' o o' D D' E E' _.
  assert (G : forall st, has_data a st -> st = 0).
  { intros [|[|x]] (Hs & h & Eh & Hd); [reflexivity| |lia]. rewrite (E1 h Eh) in Hd. destruct Hd; discriminate. }
  rewrite (G _ D) in *. rewrite (G _ D') in *. congruence.
Qed.
Lemma exo_fetch (P : prims) (a : aconf) x dat : lawful P -> aconf_ok a -> ac_count a = 2 -> stripe_size a = 512 ->
  ac_headers a = [x; 0%N] -> (N.testbit x 1 = true \/ N.testbit x 2 = true) -> contents a 0 = dat ->
  forall s, archiving P a s -> a_phase s = PDone ->
  exists src, open_archive P (a_store s) (ac_kek a) = Ok src /\ fetch_stripe P (a_store s) src 0 512 = Ok dat /\ fetch_stripe P (a_store s) src 1 512 = Ok (repeat 0%N 512).
Proof.
  intros L K Ec Es Eh Hx Ed s A Hp.
  assert (NC : no_collision P a) by (apply exo_single; [exact Ec|rewrite Eh; intros h; now intros [= <-]]).
  destruct (C23_archive_roundtrip P a L K NC s A Hp) as (src & Eo & _ & F). exists src. split; [exact Eo|].
  destruct (F 0) as (_ & F1 & _). destruct (F 1) as (_ & _ & F2). rewrite Es in F1, F2. rewrite Ed in F1.
  split; [apply F1|apply F2].
  - split; [lia|]. exists x. rewrite Eh. auto.
  - intros (_ & y & Ey & D). rewrite Eh in Ey. injection Ey as <-. destruct D; discriminate.
Qed.
Definition finished (a : aconf) (es : list aevent) : bool :=
  match arun ArchiveToy.toy_prims a (anew a) es with Some s => match a_phase s with PDone => true | _ => false end | None => false end.
Lemma finished_ok a es : finished a es = true -> exists s, archiving ArchiveToy.toy_prims a s /\ a_phase s = PDone.
Proof.
  unfold finished. destruct (arun _ a _ es) as [s|] eqn:E; [|discriminate]. intros H. exists s. split; [exists es; exact E|].
  destruct (a_phase s); auto; discriminate.
Qed.

(** Write tracking off (the default): the guest writes 5 to a stripe without source
    data, flushes, stops; started again, the device returns 5.  Every archive
    made from it gives zeros. *)
Definition es_untracked : list (event N) :=
  [EAdd 0 7 (RWrite 1 [5%N]); EApply 1 0; EDone 1 true; EAdd 0 8 RFlush; EDone 2 true].
Theorem C69_refuted_untracked :
  exists c base h enc es pb pm, well_configured c h /\ whole_stripes c /\ (forall v : N, length (enc v) = 512) /\ fresh_disk enc c base h /\
    none_half_written c h /\ no_empty_writes es /\ ssc c = 1 /\
    writes_succeeded c (history c base h (es ++ [ECrash pb pm])) 1 /\
    history c base h (es ++ [ECrash pb pm; EAdd 0 9 (RRead 1 1); ESample 3 0; EDone 3 true]) =
      [TIssue 1 0 7 (RWrite 1 [5%N]); TDone 1 0 7 true []; TIssue 2 0 8 RFlush; TDone 2 0 8 true []; TCrash;
       TIssue 3 0 9 (RRead 1 1); TDone 3 0 9 true [Some 5%N]] /\ enc 5%N = repeat 5%N 512 /\
    let a := archive_conf c enc (reached c base h (es ++ [ECrash pb pm])) in
    (forall P o s, lawful P -> options_ok o -> archiving P (a o) s -> a_phase s = PDone ->
       exists src, open_archive P (a_store s) (ao_kek o) = Ok src /\ fetch_stripe P (a_store s) src 1 512 = Ok (repeat 0%N 512)) /\
    (exists s, archiving ArchiveToy.toy_prims (a exo_options) s /\ a_phase s = PDone).
Proof.
  exists (exo false), exo_base, exo_h, exo_enc, es_untracked, (fun _ => 0), (fun _ => 0).
  destruct (exo_ok false) as (W1 & W2 & W3 & W4 & W5). split; [exact W1|]. split; [exact W2|]. split; [exact W3|]. split; [exact W4|]. split; [exact W5|].
  split; [|split; [reflexivity|split; [|split; [vm_compute; reflexivity|split; [reflexivity|]]]]].
  - intros q id off data H. cbn in H. repeat destruct H as [H|H]; try discriminate; try contradiction. injection H as <- <- <- <-. discriminate.
  - assert (E : history (exo false) exo_base exo_h (es_untracked ++ [exo_stop]) =
      [TIssue 1 0 7 (RWrite 1 [5%N]); TDone 1 0 7 true []; TIssue 2 0 8 RFlush; TDone 2 0 8 true []; TCrash]) by (vm_compute; reflexivity).
    rewrite E. intros n q id off data H _. repeat destruct H as [H|H]; try discriminate; try contradiction.
    injection H as <- <- <- <- <-. exists []. right. now left.
  - cbv zeta. split.
    + intros P o s L O A Hp. assert (K := conf_ok (exo false) exo_base exo_h exo_enc W1 W2 W3 eq_refl eq_refl o O (es_untracked ++ [exo_stop])).
      set (a := archive_conf (exo false) exo_enc (reached (exo false) exo_base exo_h (es_untracked ++ [exo_stop])) o) in *.
      assert (E1 : ac_count a = 2) by (vm_compute; reflexivity).
      assert (E2 : stripe_size a = 512) by (vm_compute; reflexivity).
      assert (E3 : ac_headers a = [4; 0]%N) by (vm_compute; reflexivity).
      assert (E4 : contents a 0 = repeat 7%N 512) by (vm_compute; reflexivity).
      destruct (exo_fetch P a _ _ L K E1 E2 E3 ltac:(cbn; auto) E4 s A Hp) as (src & Eo & F0 & F1). exists src. auto.
    + apply (finished_ok _ [AStart; AFill 0; AStart; AFetched 0 true; AUploaded 0 true; ADrained; AUploaded 0 true; AUploaded 0 true]). vm_compute. reflexivity.
Qed.

(** Write tracking on: the guest writes 5 to a stripe that has source data 7, and the
    machine stops when the stripe is marked as written but not yet fetched.  The
    write was never reported as done; started again, the device returns 7.  Every
    archive gives what was on the local disk before the device was set up (3). *)
Definition es_interrupted : list (event N) :=
  [EAdd 0 7 (RWrite 0 [5%N]); EWRecv; EWRecv; EWStartWrite; EMApply 2; EWMetaDone 2 true; EWMetaDone 3 true].
Theorem C69_refuted_interrupted :
  exists c base h enc es pb pm, well_configured c h /\ whole_stripes c /\ (forall v : N, length (enc v) = 512) /\ fresh_disk enc c base h /\
    none_half_written c h /\ no_empty_writes es /\ ssc c = 1 /\ track c = true /\ enc (base 0) = repeat 3%N 512 /\
    history c base h (es ++ [ECrash pb pm;
        EAdd 0 9 (RRead 0 1); EWRecv; EWStartFetch true; EWSrcDone 5 true; EApply 6 0; EDone 6 true; EDone 7 true; EWTakeFinished;
        EWStartWrite; EMApply 8; EWMetaDone 8 true; EWMetaDone 9 true; EFront 0; ESample 4 0; EDone 4 true]) =
      [TIssue 1 0 7 (RWrite 0 [5%N]); TCrash; TIssue 4 0 9 (RRead 0 1); TDone 4 0 9 true [Some 7%N]] /\
    enc 5%N = repeat 5%N 512 /\ enc 7%N = repeat 7%N 512 /\
    let a := archive_conf c enc (reached c base h (es ++ [ECrash pb pm])) in
    (forall P o s, lawful P -> options_ok o -> archiving P (a o) s -> a_phase s = PDone ->
       exists src, open_archive P (a_store s) (ao_kek o) = Ok src /\ fetch_stripe P (a_store s) src 0 512 = Ok (repeat 3%N 512)) /\
    (exists s, archiving ArchiveToy.toy_prims (a exo_options) s /\ a_phase s = PDone).
Proof.
  exists (exo true), exo_base, exo_h, exo_enc, es_interrupted, (fun _ => 0), (fun _ => 0).
  destruct (exo_ok true) as (W1 & W2 & W3 & W4 & W5). split; [exact W1|]. split; [exact W2|]. split; [exact W3|]. split; [exact W4|]. split; [exact W5|].
  split; [|split; [reflexivity|split; [reflexivity|split; [reflexivity|split; [vm_compute; reflexivity|split; [reflexivity|split; [reflexivity|]]]]]]].
  - intros q id off data H. cbn in H. repeat destruct H as [H|H]; try discriminate; try contradiction. injection H as <- <- <- <-. discriminate.
  - cbv zeta. split.
    + intros P o s L O A Hp. assert (K := conf_ok (exo true) exo_base exo_h exo_enc W1 W2 W3 eq_refl eq_refl o O (es_interrupted ++ [exo_stop])).
      set (a := archive_conf (exo true) exo_enc (reached (exo true) exo_base exo_h (es_interrupted ++ [exo_stop])) o) in *.
      assert (E1 : ac_count a = 2) by (vm_compute; reflexivity).
      assert (E2 : stripe_size a = 512) by (vm_compute; reflexivity).
      assert (E3 : ac_headers a = [6; 0]%N) by (vm_compute; reflexivity).
      assert (E4 : contents a 0 = repeat 3%N 512) by (vm_compute; reflexivity).
      destruct (exo_fetch P a _ _ L K E1 E2 E3 ltac:(cbn; auto) E4 s A Hp) as (src & Eo & F0 & F1). exists src. auto.
    + apply (finished_ok _ [AStart; AFill 0; AStart; AFetched 0 true; AUploaded 0 true; ADrained; AUploaded 0 true; AUploaded 0 true]). vm_compute. reflexivity.
Qed.

(** ** Non-vacuity *)

(** Write tracking on: a write of 5 to the second stripe, executed and flushed.  The
    first stripe is still in the source only. *)
Definition es_tracked : list (event N) :=
  [EAdd 0 7 (RWrite 1 [5%N]); EWRecv; EWStartWrite; EMApply 2; EWMetaDone 2 true; EWMetaDone 3 true; EFront 0;
   EApply 1 0; EDone 1 true; EAdd 0 8 RFlush; EDone 4 true].
Definition exo_tracked : state N := reached (exo true) exo_base exo_h (es_tracked ++ [exo_stop]).
Definition exo_archive : aconf := archive_conf (exo true) exo_enc exo_tracked exo_options.
Lemma exo_distinct : no_collision ArchiveToy.toy_prims exo_archive.
Proof.
  assert (H : forallb (fun st => forallb (fun st' =>
     match stripe_object ArchiveToy.toy_prims (ac_cipher exo_archive) (ac_comp exo_archive) (ac_ssc exo_archive) st (contents exo_archive st),
           stripe_object ArchiveToy.toy_prims (ac_cipher exo_archive) (ac_comp exo_archive) (ac_ssc exo_archive) st' (contents exo_archive st') with
     | Ok o, Ok o' => bytes_eqb o o' || negb (bytes_eqb (sha ArchiveToy.toy_prims o) (sha ArchiveToy.toy_prims o'))
     | _, _ => true
     end) [0; 1]) [0; 1] = true) by (vm_compute; reflexivity).
  assert (C2 : ac_count exo_archive = 2) by (vm_compute; reflexivity).
  intros st st' o o' (D & _) (D' & _) E E' Hs. rewrite forallb_forall in H.
  assert (G : forall i, i < ac_count exo_archive -> In i [0; 1]) by (intros [|[|i]] Hi; cbn; auto; lia).
  specialize (H st (G _ D)). rewrite forallb_forall in H. specialize (H st' (G _ D')).
  rewrite E, E' in H. apply orb_true_iff in H. destruct H as [H|H].
  - now apply bytes_eqb_spec.
  - rewrite Hs, bytes_eqb_refl in H. discriminate.
Qed.

Example C69_nonvacuous :
  (well_configured (exo true) exo_h /\ whole_stripes (exo true) /\ (forall v, length (exo_enc v) = 512) /\ track (exo true) = true /\
   fresh_disk exo_enc (exo true) exo_base exo_h /\ none_half_written (exo true) exo_h /\ no_empty_writes es_tracked /\
   lawful ArchiveToy.toy_prims /\ options_ok exo_options /\ no_collision ArchiveToy.toy_prims exo_archive) /\
  (exists a, archiving ArchiveToy.toy_prims exo_archive a /\ a_phase a = PDone) /\
  (forall st, writes_succeeded (exo true) (history (exo true) exo_base exo_h (es_tracked ++ [exo_stop])) st) /\
  headers_on_disk (exo true) exo_tracked = [4; 2]%N /\ contents exo_archive 0 = repeat 7%N 512 /\ contents exo_archive 1 = repeat 5%N 512.
Proof.
  destruct (exo_ok true) as (W1 & W2 & W3 & W4 & W5).
  split; [split; [exact W1|split; [exact W2|split; [exact W3|split; [reflexivity|split; [exact W4|split; [exact W5|split; [|split; [exact ArchiveToy.toy_lawful|split; [exact exo_options_ok|exact exo_distinct]]]]]]]]]|].
  - intros q id off data H. cbn in H. repeat destruct H as [H|H]; try discriminate; try contradiction. injection H as <- <- <- <-. discriminate.
  - split; [|split; [|split; [vm_compute; reflexivity|split; vm_compute; reflexivity]]].
    + apply (finished_ok _ [AStart; AFill 0; AFetched 0 true; AStart; AFill 1; AFetched 1 true; AUploaded 0 true; AUploaded 0 true; ADrained; AUploaded 0 true; AUploaded 0 true]). vm_compute. reflexivity.
    + intros st. assert (E : history (exo true) exo_base exo_h (es_tracked ++ [exo_stop]) =
        [TIssue 1 0 7 (RWrite 1 [5%N]); TDone 1 0 7 true []; TIssue 4 0 8 RFlush; TDone 4 0 8 true []; TCrash]) by (vm_compute; reflexivity).
      rewrite E. intros n q id off data H _. repeat destruct H as [H|H]; try discriminate; try contradiction.
      injection H as <- <- <- <- <-. exists []. right. now left.
Qed.

(** The server on the device of [C69_refuted_untracked] returns the 5 that the
    archive loses, and on that of [C69_refuted_interrupted] the 7. *)
Definition exo_io (c : cfg N) (s : state N) : RemoteModel.io :=
  RemoteModel.mk_io (fun i _ _ => Some (disk_stripe c exo_enc s (N.to_nat i))) (fun i _ => Some (source_stripe c exo_enc (N.to_nat i))).
Lemma exo_reads c s : reads_files c exo_enc s 0 (exo_io c s).
Proof.
  intros st Hst i header. unfold exo_io, RemoteModel.io_dev, RemoteModel.io_src, i. rewrite N.pow_0_r, N.mul_1_r, Nat2N.id. auto.
Qed.
Definition exo_serves (tracking : bool) (es : list (event N)) (st : N) : res (list byte * bool) :=
  let s := reached (exo tracking) exo_base exo_h (es ++ [exo_stop]) in
  let! ss := server_of (exo tracking) s 0 true in RemoteModel.handle_read_stripe ss (exo_io (exo tracking) s) st.
Example C70_nonvacuous :
  (forall tracking, ssc (exo tracking) = N.to_nat (2 ^ 0) /\ fresh_disk exo_enc (exo tracking) exo_base exo_h) /\
  (forall c s, reads_files c exo_enc s 0 (exo_io c s)) /\
  exo_serves false es_untracked 0 = Ok (0%N :: le_bytes 8 512 ++ repeat 7%N 512, true) /\
  exo_serves false es_untracked 1 = Ok (0%N :: le_bytes 8 512 ++ repeat 5%N 512, true) /\
  exo_serves true es_interrupted 0 = Ok (0%N :: le_bytes 8 512 ++ repeat 7%N 512, true) /\
  exo_serves true es_interrupted 1 = Ok ([2%N], true) /\
  server_of (exo true) exo_tracked 0 false = Err 1.
Proof.
  split; [intros tracking; split; [reflexivity|exact (proj1 (proj2 (proj2 (proj2 (exo_ok tracking)))))]|].
  split; [exact exo_reads|]. repeat (split; [vm_compute; reflexivity|]). vm_compute. reflexivity.
Qed.

Print Assumptions C69_archive_partial.
Print Assumptions C69_refuted_untracked.
Print Assumptions C69_refuted_interrupted.
Print Assumptions C70_server.
Print Assumptions C70_starts.
