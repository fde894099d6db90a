(** C90: every stripe a server announces can be had from it.

    True of the stripes that lie within the server's disk; false of a last stripe that the
    disk does not fill, if the disk is read with the sync engine: the server always asks for
    a whole stripe. *)
From Coq Require Import List Arith NArith ZArith Bool Lia ZifyBool ZifyNat ZifyN.
Import ListNotations.
From Verif Require Import LazyState LazyModel.
From Verif Require Import Base BaseFacts DiskSpec MetadataModel MetadataSpec CryptModel SyncModel StackModel StackProofs StackProps CloneModel CloneSpec CloneProofs TailSpec TailProofs.
From Verif Require RemoteModel OfflineProps StackProps CloneProps.
Local Open Scope nat_scope.
Ltac Zify.zify_post_hook ::= Z.div_mod_to_equations.

Lemma pow_small : forall shift, (shift <= 17)%N -> (0 < 2 ^ shift < 2 ^ 18)%N.
Proof. intros shift H. assert (2 ^ shift <= 2 ^ 17)%N by (apply N.pow_le_mono_r; lia). assert (2 ^ shift <> 0)%N by (apply N.pow_nonzero; lia). change (2 ^ 18)%N with (2 * 2 ^ 17)%N. lia. Qed.

(** What the server makes of a request for a stripe of its own disk. *)
Lemma from_disk_reply : forall ss o st, from_disk (RemoteModel.ss_meta ss) st -> (md_shift (RemoteModel.ss_meta ss) <= 17)%N ->
  let n := (2 ^ md_shift (RemoteModel.ss_meta ss))%N in
  RemoteModel.handle_read_stripe ss o (N.of_nat st) =
    Ok (RemoteModel.data_reply (RemoteModel.ss_meta ss) (RemoteModel.io_dev o (N.of_nat st * n) n (N.to_nat n * 512))).
Proof.
  intros ss o st (Hst & H1 & H2) Hs n. pose proof (pow_small _ Hs) as B. fold n in B. unfold RemoteModel.handle_read_stripe. set (m := RemoteModel.ss_meta ss) in *.
  unfold stripe_count. destruct (N.leb_spec (N.of_nat (length (md_headers m))) (N.of_nat st)); [lia|].
  unfold RemoteModel.stripe_not_fetched, RemoteModel.stripe_has_data. rewrite Nat2N.id, (index_ok _ _ 0%N) by exact Hst. cbn [bindr].
  change RemoteModel.flag with has_flag. rewrite OfflineProps.hf_source, OfflineProps.hf_fetched, OfflineProps.hf_written.
  assert (Sc : stripe_sector_count m = n) by (unfold stripe_sector_count; now rewrite N.shiftl_1_l).
  assert (Sl : RemoteModel.stripe_len m = N.to_nat n * 512) by (unfold RemoteModel.stripe_len, MetadataModel.stripe_size; rewrite Sc; lia).
  rewrite Sc, Sl, (N.mod_small n (2 ^ 32)) by (change (2 ^ 32)%N with (2 ^ 18 * 2 ^ 14)%N; lia).
  set (h := nth st (md_headers m) 0%N) in *. destruct (N.testbit h 2) eqn:E2; cbn [andb].
  - rewrite (H1 eq_refl). cbn [negb andb]. now rewrite orb_true_r.
  - destruct H2 as [->|H2]; [reflexivity|discriminate H2].
Qed.

(** Stripes within the disk: a server whose disk is a file of [len] sectors can give them to
    its clients. *)
Theorem C90_inside_partial : forall shift hs src len (contents : nat -> list byte) st,
  let ss := RemoteModel.mk_session (current_metadata shift hs) src in
  let n := N.to_nat (2 ^ shift) in
  (shift <= 17)%N -> (N.of_nat len < 2 ^ 55)%N -> (forall x, x < len -> length (contents x) = 512) ->
  from_disk (RemoteModel.ss_meta ss) st -> (st + 1) * n <= len ->
  exists o reply, reads_file len contents (RemoteModel.ss_meta ss) o /\
    RemoteModel.handle_read_stripe ss o (N.of_nat st) = Ok (reply, true) /\
    forall more, RemoteModel.client_fetch_stripe (Some (RemoteModel.ss_meta ss)) (reply ++ more) =
      RemoteModel.COk (stripe_at contents n st) more.
Proof.
  intros shift hs src len contents st ss n Hs Hl Hc Fd Le. pose proof (pow_small _ Hs) as B.
  set (o := RemoteModel.mk_io (fun off _ _ => if (off =? N.of_nat st * 2 ^ shift)%N then Some (stripe_at contents n st) else None) (fun _ _ => None)).
  exists o, (fst (RemoteModel.data_reply (current_metadata shift hs) (Some (stripe_at contents n st)))). split; [|split].
  - intros st' bytes. cbv zeta. cbn [RemoteModel.ss_meta ss md_shift current_metadata o RemoteModel.io_dev]. fold n.
    destruct (N.eqb_spec (N.of_nat st' * 2 ^ shift) (N.of_nat st * 2 ^ shift)) as [E|E]; [|discriminate]. intros Eb. injection Eb as <-.
    assert (st' = st) by nia. subst st'.
    assert (F : forall k a, fetch (fun x => [mk_cell 0 0 (contents x)]) a k = Some (map contents (seq a k))).
    { induction k as [|k IH]; intros a; [reflexivity|]. cbn [fetch cur_cell hd_error option_map ce_val]. rewrite IH. reflexivity. }
    assert (Uo : unit_offset 512 (st * n) = st * n).
    { unfold unit_offset, byte_offset. rewrite N.mod_small by lia. rewrite N.div_mul by lia. lia. }
    destruct n as [|k] eqn:En; [lia|].
    exists [SRead 1 0 0 (st * S k) (S k) (repeat [] (S k)); SReturn 0 (Moved (S k)); SPoll 0].
    eexists. eexists. exists 1, 0, 0, (map contents (seq (st * S k) (S k))). split.
    + cbn [srun sstep new_sdev s_panic s_used s_chan idle ch_going is_some orb Nat.eqb]. rewrite Nat.mul_1_r, repeat_length. destruct (Nat.ltb_spec (S k) (S k)); [lia|].
      rewrite Uo, firstn_all2 by (rewrite repeat_length; lia). unfold begins. cbn [repeat].
      unfold sstep at 1. cbn [set_chan new_sdev idle s_panic s_chan upd Nat.eqb ch_going s_len s_cell s_used s_now ch_finished]. unfold upd at 1. cbn [Nat.eqb ch_going].
      change (length ([] :: repeat [] k)) with (S (length (repeat (@nil byte) k))). rewrite repeat_length, Nat.add_0_r, Nat.add_0_l.
      destruct (Nat.ltb_spec (S k) (S k)); [lia|]. destruct (Nat.ltb_spec len (st * S k + S k)); [lia|]. cbn [orb]. rewrite F, Nat.eqb_refl.
      unfold sstep at 1. cbn [ends set_chan s_panic s_chan]. unfold upd at 1. cbn [Nat.eqb ch_going is_some]. reflexivity.
    + split; [repeat constructor|]. unfold upd. cbn [Nat.eqb ch_finished app map In]. rewrite !Nat.mul_1_r.
      unfold SyncModel.fill. cbn [firstn app]. rewrite skipn_all2 by (rewrite map_length, seq_length; cbn [length]; rewrite repeat_length; lia). rewrite app_nil_r. auto.
  - rewrite from_disk_reply by assumption. cbn [RemoteModel.ss_meta ss md_shift current_metadata o RemoteModel.io_dev]. rewrite N.eqb_refl. reflexivity.
  - intros more. cbn [RemoteModel.ss_meta ss]. apply OfflineProps.data_reply_client; [|exact Hs]. unfold stripe_at. fold n.
    assert (Ls : forall k a, a + k <= len -> length (concat (map contents (seq a k))) = k * 512).
    { induction k as [|k IH]; intros a Ha; [reflexivity|]. cbn [seq map concat]. rewrite app_length, IH, Hc by lia. lia. }
    rewrite Ls by lia. unfold n. lia.
Qed.

(** A stripe that the disk does not fill cannot be had. *)
Theorem C90_refuted_last_stripe : forall ss o len contents st,
  let n := N.to_nat (2 ^ md_shift (RemoteModel.ss_meta ss)) in
  (md_shift (RemoteModel.ss_meta ss) <= 17)%N -> (N.of_nat len < 2 ^ 55)%N -> reads_file len contents (RemoteModel.ss_meta ss) o ->
  from_disk (RemoteModel.ss_meta ss) st -> st * n < len < (st + 1) * n ->
  RemoteModel.handle_read_stripe ss o (N.of_nat st) = Ok ([RemoteModel.STATUS_SERVER_ERROR], false) /\
  forall more, RemoteModel.client_fetch_stripe (Some (RemoteModel.ss_meta ss)) (RemoteModel.STATUS_SERVER_ERROR :: more) =
    RemoteModel.CErr (RemoteModel.EStatus RemoteModel.STATUS_SERVER_ERROR) more.
Proof.
  intros ss o len contents st n Hs Hl Rf Fd Le. split; [|reflexivity]. rewrite from_disk_reply by assumption.
  destruct (RemoteModel.io_dev _ _ _ _) as [bytes|] eqn:E; [|reflexivity]. exfalso.
  destruct (Rf st bytes E) as (es & s & tr & k & q & id & data & R & W & Hi & Hd & _). fold n in Hi.
  assert (X : st * n + n <= len); [|lia].
  apply (read_inside false false len Hl contents es s tr k q id (st * n) n q id (map Some data) R W Hi); [|lia|exact Hd].
  pose proof (pow_small _ Hs). unfold n. lia.
Qed.

(** Every device without metadata whose size is not a multiple of 1 MiB has such a stripe,
    and its server announces it. *)
Theorem C90_refuted_announced : forall w (xts : xts_type) c blank l ss,
  launch w xts c blank = Ok l -> c_metadata c = None -> sector_count (l_bdev l) mod N.to_nat 2048 <> 0 -> stripe_server w xts c = Ok ss ->
  let m := RemoteModel.ss_meta ss in
  let n := N.to_nat (2 ^ md_shift m) in
  let len := sector_count (l_bdev l) in
  let st := len / n in
  (md_shift m <= 17)%N /\ RemoteModel.remote_has_stripe (md_headers m) st = Ok true /\ from_disk m st /\ st * n < len < (st + 1) * n.
Proof.
  intros w xts c blank l ss L Hp Wh Es m n len st.
  unfold launch in L. apply bind_ok in L as ((d & kw) & B & L). apply build_ok in B as (data & D & B). rewrite Hp in B. destruct B as (-> & ->).
  cbn [fst snd] in L. apply Ok_inj in L. subst l. cbn [l_bdev] in *. pose proof (device_count w xts _ _ _ _ D) as (_ & Cd).
  unfold stripe_server in Es. apply bind_ok in Es as (disk & Hd & Es). apply (block_ok w xts) in Hd. pose proof (device_count w xts _ _ _ _ Hd) as (_ & Cd').
  rewrite Hp, Cd', <- Cd in Es. unfold RemoteModel.prepare_stripe_server in Es. apply Ok_inj in Es. fold len in Es, Wh.
  change (Nat.pow 2 (N.to_nat RemoteModel.DEFAULT_SHIFT)) with (N.to_nat (2 ^ 11)) in Es. change (N.to_nat 2048) with (N.to_nat (2 ^ 11)) in Wh.
  assert (Sh : md_shift m = 11%N) by (unfold m; now rewrite <- Es). assert (Est : st = len / N.to_nat (2 ^ 11)) by (unfold st, n; now rewrite Sh). clearbody st. subst n. rewrite Sh in *. set (q := N.to_nat (2 ^ 11)) in *.
  assert (Hq : q = 2 * 1024) by (apply Nat2N.inj; unfold q; rewrite N2Nat.id; reflexivity). assert (Q0 : 0 < q) by lia.
  assert (Hb : st * q < len < (st + 1) * q).
  { rewrite Est. pose proof (Nat.div_mod len q ltac:(lia)). pose proof (Nat.mod_upper_bound len q ltac:(lia)).
    clear - H H0 Wh Q0. clearbody q. revert H H0 Wh. generalize (len / q) (len mod q). intros a b H H0 H1.
    nia. }
  assert (Dc : st < div_ceil len q).
  { unfold div_ceil. apply Nat.div_le_lower_bound; [lia|]. clear - Hb Q0. clearbody q len. nia. }
  assert (Hh : md_headers m = repeat 7%N (div_ceil len q)).
  { unfold m. rewrite <- Es. cbn [RemoteModel.ss_meta md_headers metadata_new]. rewrite map_map. generalize (div_ceil len q). clear. intros n.
    enough (H : forall m k, k + m <= n -> map (fun x => N.lor (if Nat.ltb x n then FLAG_HAS_SOURCE else 0%N) (N.lor FLAG_WRITTEN FLAG_FETCHED)) (seq k m) = repeat 7%N m) by (apply H; lia).
    induction m as [|m IH]; intros k Hk; [reflexivity|]. cbn [seq map repeat]. rewrite IH by lia. destruct (Nat.ltb_spec k n); [reflexivity|lia]. }
  assert (Nx : nth st (md_headers m) 0%N = 7%N).
  { rewrite Hh. assert (X : In (nth st (repeat 7%N (div_ceil len q)) 0%N) (repeat 7%N (div_ceil len q))) by (apply nth_In; now rewrite repeat_length). exact (repeat_spec _ _ _ X). }
  assert (Lm : st < length (md_headers m)) by (rewrite Hh, repeat_length; exact Dc).
  split; [lia|]. split; [|split; [|exact Hb]].
  - apply CloneProps.held. rewrite Nx. auto.
  - split; [exact Lm|]. cbv zeta. rewrite Nx. auto.
Qed.

(** Such a device: six sectors. *)
Definition tail_l : launched := CloneProps.the_launched (launch StackProps.ex_plain_world StackProps.ex_xts StackProps.ex_plain []).
Definition tail_server : RemoteModel.session := RemoteModel.mk_session (current_metadata 11 [7%N]) false.
Definition tail_io : RemoteModel.io := RemoteModel.mk_io (fun _ _ _ => None) (fun _ _ => None).
Example C90_nonvacuous :
  launch StackProps.ex_plain_world StackProps.ex_xts StackProps.ex_plain [] = Ok tail_l /\ sector_count (l_bdev tail_l) = 6 /\
  stripe_server StackProps.ex_plain_world StackProps.ex_xts StackProps.ex_plain = Ok tail_server /\
  reads_file 6 (sector_at StackProps.ex_plain_world [4%N]) (RemoteModel.ss_meta tail_server) tail_io /\
  from_disk (RemoteModel.ss_meta tail_server) 0 /\
  from_disk (current_metadata 1 [FLAG_WRITTEN; 0; 7]%N) 2.
Proof.
  split; [vm_compute; reflexivity|]. split; [vm_compute; reflexivity|]. split; [vm_compute; reflexivity|]. split; [intros st bytes n E; discriminate E|].
  split; (split; [cbn; lia|]); cbn; auto.
Qed.

Print Assumptions C90_inside_partial.
Print Assumptions C90_refuted_last_stripe.
Print Assumptions C90_refuted_announced.
