(** C82: the encrypting device over any base device, and whole stacks down to a file.

    [krun enc dec new_kdev es = Some (s, g, b)] says that the encrypting device ran to
    state [s] with the history [g] towards its callers and the history [b] towards its
    base; [frun 512 1 ...] that an io_uring device ran on a file of sectors (C81: what a
    power failure does not tear is a sector). *)
From Coq Require Import List Arith NArith ZArith Bool Lia ZifyBool ZifyNat ZifyN.
Import ListNotations.
From Verif Require Import Base DiskSpec TraceSpec LazyState MetadataModel LazyModel LazySpec LazyProps CryptModel CryptProofs
  LayerSpec LayerModel LayerIds LayerProofs LayerStack SyncModel
  UringDiskModel UringDiskSpec UringDiskProps CryptOpenModel CryptOpenSpec CryptOpenProofs CryptOpenCheck.
From Verif Require CryptProps LayerProps GuestModel GuestSpec GuestProps UblkDiskModel UblkDiskSpec UblkDiskProps.

Ltac Zify.zify_post_hook ::= Z.div_mod_to_equations.

(** Whatever the base device is, if it behaves as an ordinary disk then so does the
    encrypting device, one that holds the decrypted sectors at first and at the end; it
    does not panic. *)
Theorem C82_encrypted_over_any_disk :
  forall (V : Type) (enc dec : nat -> V -> V) size stored (es : list (kevent V)) s g b d,
  (forall x v, dec x (enc x v) = v) ->
  krun enc dec new_kdev es = Some (s, g, b) -> all_buffers_ok enc dec new_kdev es ->
  respects size (fun x => dec x (stored x)) g ->
  disk_behaviour size stored b d ->
  k_panic s = false /\
  exists d', disk_behaviour size (fun x => dec x (stored x)) g d' /\
    forall x, cur (d_hist d' x) = option_map (dec x) (cur (d_hist d x)).
Proof.
  intros V enc dec size stored es s g b d Hi R Hb Hr Hd.
  destruct (sim_run enc dec size Hi stored es s g b d R Hb Hr Hd) as (p & P & (K & S & _)).
  split; [apply K|]. exists p. split; [exact P|]. intros x. rewrite (ds_hist _ _ _ S). apply cur_dec.
Qed.

(** As long as its callers do not reuse the id of a request in flight, neither does the
    encrypting device towards its base. *)
Theorem C82_keeps_the_contract :
  forall (V : Type) (enc dec : nat -> V -> V) size stored (es : list (kevent V)) s g b,
  (forall x v, dec x (enc x v) = v) ->
  krun enc dec new_kdev es = Some (s, g, b) -> all_buffers_ok enc dec new_kdev es ->
  respects size (fun x => dec x (stored x)) g -> respects size stored b.
Proof. intros V enc dec size stored es s g b Hi. now apply contract_below. Qed.

(** What the base gets to see of a write is only cipher text: every sector written is the
    encryption, under its own number, of a sector the caller wrote. *)
Theorem C82_base_sees_cipher_text :
  forall (V : Type) (enc dec : nat -> V -> V) (es : list (kevent V)) s g b n q id off data,
  krun enc dec new_kdev es = Some (s, g, b) -> all_buffers_ok enc dec new_kdev es ->
  In (TIssue n q id (RWrite off data)) b ->
  exists plain, In (TIssue n q id (RWrite off plain)) g /\ length data = length plain /\
    forall i v, nth_error data i = Some v -> exists w, nth_error plain i = Some w /\ v = enc (off + i) w.
Proof.
  intros V enc dec es s g b n q id off data. generalize (@new_kdev V). revert s g b.
  induction es as [|e es IH]; intros s g b s0 R Hb Hin; cbn [krun] in R.
  { injection R as <- <- <-. destruct Hin. }
  destruct (kstep enc dec s0 e) as [[[s1 g1] b1]|] eqn:E; [|discriminate].
  destruct (krun enc dec s1 es) as [[[s2 g2] b2]|] eqn:E2; [|discriminate]. injection R as <- <- <-.
  cbn [all_buffers_ok] in Hb. rewrite E in Hb. destruct Hb as [Hb1 Hb2]. apply in_app_iff in Hin as [Hin|Hin].
  2:{ destruct (IH _ _ _ _ E2 Hb2 Hin) as (plain & A & B). exists plain. split; auto. apply in_or_app. auto. }
  destruct e as [bb dd|n' q' id' off' cnt bb|n' q' id' off' cnt bb|n' q' id'|n' ok dd|]; cbn [kstep buffers_ok] in *.
  - injection E as _ _ <-. destruct Hin.
  - injection E as _ _ <-. destruct Hin as [H|[]]. discriminate H.
  - destruct (defined (firstn cnt (k_mem s0 bb))) as [plain|] eqn:Ep; [|discriminate]. destruct Hb1 as [_ Hl].
    destruct (crypt_loop_ok enc off' cnt 0 (k_mem s0 bb)) as (buf & Eb & Lb & Nb); [lia|]. rewrite Eb in E.
    destruct (defined (firstn cnt buf)) as [cipher|] eqn:Ec; [|discriminate]. injection E as _ <- <-.
    destruct Hin as [H|[]]. injection H as <- <- <- <- <-. exists plain. split; [now left|].
    apply defined_spec in Ep, Ec. split.
    { apply (f_equal (@length _)) in Ep, Ec. rewrite map_length, firstn_length in Ep, Ec. lia. }
    intros i v Hv. assert (Hc : nth_error (map Some cipher) i = nth_error (firstn cnt buf) i) by now rewrite Ec.
    assert (Hp : nth_error (map Some plain) i = nth_error (firstn cnt (k_mem s0 bb)) i) by now rewrite Ep.
    rewrite nth_error_firstn, nth_error_map in Hc, Hp. rewrite Nb in Hc. cbn [Nat.leb andb] in Hc.
    rewrite Nat.add_0_l in Hc. rewrite Hv in Hc. destruct (i <? cnt); [|discriminate Hc]. rewrite <- Hp in Hc.
    destruct (nth_error plain i) as [w|]; cbn in Hc; [|discriminate Hc]. exists w. split; auto. now injection Hc as ->.
  - injection E as _ _ <-. destruct Hin as [H|[]]. discriminate H.
  - destruct (k_ops s0 n') as [[q'' id'' w]|]; [|discriminate]. injection E as _ _ <-. destruct Hin as [H|[]]. discriminate H.
  - injection E as _ _ <-. destruct Hin as [H|[]]. discriminate H.
Qed.

(** *** On a file *)

(** An io_uring device opened on a file of [nsec] sectors holding [stored] ran to state
    [f], with the history [b] towards its callers, who kept the contract; no transfer was
    short (C81). *)
Definition on_a_file {V} (nsec : nat) (stored : nat -> V) (f : fdev V) (b : list (titem V)) : Prop :=
  exists queue_size len readonly osync fes,
    (len < 2 ^ 63)%N /\ open_uring queue_size len = Ok (N.of_nat nsec) /\
    calls_ok 512 1 readonly osync (N.to_nat queue_size) nsec (new_fdev nsec stored) fes /\ no_short_transfers fes /\
    frun 512 1 readonly osync (N.to_nat queue_size) (new_fdev nsec stored) fes = Some (f, b).

Lemma file_disk : forall V nsec (stored : nat -> V) f b, on_a_file nsec stored f b ->
  exists d, disk_behaviour nsec stored b d /\ forall x, cur (d_hist d x) = cur_cell (f_cell f x).
Proof.
  intros V nsec stored f b (qs & len & ro & os & fes & B & O & C & Ns & R).
  destruct (opened _ _ _ B O) as [_ El].
  destruct (C81_io_uring_device_is_a_disk V 512 1 ro os qs len (N.of_nat nsec) stored fes f b) as (d & D & E); auto.
  - replace (N.to_nat (len / 512)) with nsec by lia. rewrite Nat2N.id. exact C.
  - replace (N.to_nat (len / 512)) with nsec by lia. exact R.
  - rewrite Nat2N.id, Nat.mul_1_r in D. eauto.
Qed.

(** The encrypting device on a file. *)
Theorem C82_encrypted_file :
  forall (V : Type) (enc dec : nat -> V -> V) nsec stored (es : list (kevent V)) s g b f,
  (forall x v, dec x (enc x v) = v) ->
  krun enc dec new_kdev es = Some (s, g, b) -> all_buffers_ok enc dec new_kdev es ->
  respects nsec (fun x => dec x (stored x)) g ->
  on_a_file nsec stored f b ->
  exists d, disk_behaviour nsec (fun x => dec x (stored x)) g d /\
    forall x, cur (d_hist d x) = option_map (dec x) (cur_cell (f_cell f x)).
Proof.
  intros V enc dec nsec stored es s g b f Hi R Hb Hr Hf. destruct (file_disk _ _ _ _ _ Hf) as (d & D & E).
  destruct (C82_encrypted_over_any_disk V enc dec nsec stored es s g b d Hi R Hb Hr D) as (_ & d' & D' & E').
  exists d'. split; [exact D'|]. intros x. now rewrite E', E.
Qed.

(** The lazy device on the encrypting device on a file. *)
Theorem C82_lazy_encrypted_file : forall (V : Type) (c : cfg V) h oes so g b
  (enc dec : nat -> V -> V) stored kes s b' f,
  well_configured c h -> LayerProps.requests_fit c oes ->
  orun c (oinit c h) oes = Some (so, g, b) ->
  (forall x v, dec x (enc x v) = v) ->
  krun enc dec new_kdev kes = Some (s, b, b') -> all_buffers_ok enc dec new_kdev kes ->
  on_a_file (target c) stored f b' ->
  respects (target c) (initial_contents c (fun x => dec x (stored x)) h) g ->
  exists d, disk_behaviour (target c) (initial_contents c (fun x => dec x (stored x)) h) g d /\
    forall x, x < target c ->
      cur (d_hist d x) = if released (shf so (x / ssc c)) then option_map (dec x) (cur_cell (f_cell f x)) else Some (image c x).
Proof.
  intros V c h oes so g b enc dec stored kes s b' f WC Fe Hr Hi R Hb Hf Hg.
  pose proof (LayerProps.C79_lazy_keeps_the_contract V c _ h oes so g b WC Fe Hr Hg) as Hbase.
  destruct (C82_encrypted_file V enc dec (target c) stored kes s b b' f Hi R Hb Hbase Hf) as (d & D & E).
  destruct (LayerProps.C79_lazy_over_any_disk V c _ h oes so g b d WC Fe Hr D) as (d' & D' & E').
  exists d'. split; [exact D'|]. intros x Hx. rewrite (E' x Hx), E. reflexivity.
Qed.

(** *** Whole stacks *)

(** A guest on a backend on a lazy device on an encrypting device on a file: what the
    guest notes ([gtr]) is a history of an ordinary disk that first holds the decrypted
    file overlaid with the image, and at the end what the file then holds, decrypted, in
    released stripes and the image's sectors in the others. *)
Theorem C82_guest_of_a_file : forall valid qsize did nslots bufsize m0 gs P g gtr
  (c : cfg GuestModel.sector) h oes so b (enc dec : nat -> GuestModel.sector -> GuestModel.sector) stored kes s b' f,
  GuestSpec.session valid qsize did nslots bufsize (target c) m0 gs P g gtr ->
  well_configured c h -> LayerProps.requests_fit c oes ->
  orun c (oinit c h) oes = Some (so, g, b) ->
  (forall x v, dec x (enc x v) = v) ->
  krun enc dec new_kdev kes = Some (s, b, b') -> all_buffers_ok enc dec new_kdev kes ->
  on_a_file (target c) stored f b' ->
  (forall x, x < target c ->
     N.of_nat (length (initial_contents c (fun x => dec x (stored x)) h x)) = 512%N) ->
  exists d, disk_behaviour (target c) (initial_contents c (fun x => dec x (stored x)) h) gtr d /\
    forall x, x < target c ->
      cur (d_hist d x) = if released (shf so (x / ssc c)) then option_map (dec x) (cur_cell (f_cell f x)) else Some (image c x).
Proof.
  intros valid qsize did nslots bufsize m0 gs P g gtr c h oes so b enc dec stored kes s b' f S WC Fe Hr Hi R Hb Hf Hc.
  pose proof (LayerProps.C79_backend_keeps_the_contract _ _ _ _ _ _ _ _ _ _ _ _ S Hc) as Hg.
  destruct (C82_lazy_encrypted_file _ c h oes so g b enc dec stored kes s b' f WC Fe Hr Hi R Hb Hf Hg) as (d & D & E).
  destruct (GuestProps.C78_guest_sees_a_disk _ _ _ _ _ _ _ _ _ _ _ _ _ S Hc D) as (d' & D' & Eh).
  exists d'. split; [exact D'|]. intros x Hx. rewrite <- (E x Hx). exact (f_equal (fun f => cur (f x)) Eh).
Qed.

(** The kernel driver on a ublk backend on the same layers. *)
Theorem C82_driver_of_a_file : forall max depth us P g ktr
  (c : cfg GuestModel.sector) h oes so b (enc dec : nat -> GuestModel.sector -> GuestModel.sector) stored kes s b' f,
  (max < 2 ^ 31)%N ->
  UblkDiskSpec.session max depth (target c) us P g ktr ->
  well_configured c h -> LayerProps.requests_fit c oes ->
  orun c (oinit c h) oes = Some (so, g, b) ->
  (forall x v, dec x (enc x v) = v) ->
  krun enc dec new_kdev kes = Some (s, b, b') -> all_buffers_ok enc dec new_kdev kes ->
  on_a_file (target c) stored f b' ->
  (forall x, x < target c ->
     N.of_nat (length (initial_contents c (fun x => dec x (stored x)) h x)) = 512%N) ->
  exists d, disk_behaviour (target c) (initial_contents c (fun x => dec x (stored x)) h) ktr d /\
    forall x, x < target c ->
      cur (d_hist d x) = if released (shf so (x / ssc c)) then option_map (dec x) (cur_cell (f_cell f x)) else Some (image c x).
Proof.
  intros max depth us P g ktr c h oes so b enc dec stored kes s b' f Hm S WC Fe Hr Hi R Hb Hf Hc.
  pose proof (UblkDiskProps.C80_keeps_the_contract _ _ _ _ _ _ _ _ Hm S Hc) as Hg.
  destruct (C82_lazy_encrypted_file _ c h oes so g b enc dec stored kes s b' f WC Fe Hr Hi R Hb Hf Hg) as (d & D & E).
  destruct (UblkDiskProps.C80_driver_sees_a_disk _ _ _ _ _ _ _ _ _ Hm S Hc D) as (d' & D' & Eh).
  exists d'. split; [exact D'|]. intros x Hx. rewrite <- (E x Hx). apply Eh.
Qed.

(** A guest on an encrypted raw disk, without an image: no lazy device in between. *)
Theorem C82_guest_of_an_encrypted_file : forall valid qsize did nslots bufsize nsec m0 gs P g gtr
  (enc dec : nat -> GuestModel.sector -> GuestModel.sector) stored kes s b f,
  GuestSpec.session valid qsize did nslots bufsize nsec m0 gs P g gtr ->
  (forall x v, dec x (enc x v) = v) ->
  krun enc dec new_kdev kes = Some (s, g, b) -> all_buffers_ok enc dec new_kdev kes ->
  on_a_file nsec stored f b ->
  (forall x, x < nsec -> N.of_nat (length (dec x (stored x))) = 512%N) ->
  exists d, disk_behaviour nsec (fun x => dec x (stored x)) gtr d /\
    forall x, cur (d_hist d x) = option_map (dec x) (cur_cell (f_cell f x)).
Proof.
  intros valid qsize did nslots bufsize nsec m0 gs P g gtr enc dec stored kes s b f S Hi R Hb Hf Hc.
  pose proof (LayerProps.C79_backend_keeps_the_contract _ _ _ _ _ _ _ _ _ _ _ (fun x => dec x (stored x)) S Hc) as Hg.
  destruct (C82_encrypted_file _ enc dec nsec stored kes s g b f Hi R Hb Hg Hf) as (d & D & E).
  destruct (GuestProps.C78_guest_sees_a_disk _ _ _ _ _ _ _ _ _ _ _ _ _ S Hc D) as (d' & D' & Eh).
  exists d'. split; [exact D'|]. intros x. rewrite <- (E x). exact (f_equal (fun f => cur (f x)) Eh).
Qed.

(** *** The session of C78 and C79 on a file of six sectors *)
Notation fill := GuestProps.fill.
Notation ex_enc := LayerProps.ex_enc.

Definition ex_kes : list (kevent GuestModel.sector) :=
  [ KFill 0 [fill 100; fill 101]; KWrite 3 0 0 0 2 0; KDone 3 true []; KFlush 4 0 0; KDone 4 true [];
    KFill 1 [fill 7]; KWrite 1 1 0 1 1 1; KDone 1 true []; KFlush 9 1 0; KDone 9 true []; KCrash;
    KFill 0 [fill 102; fill 103]; KWrite 12 0 1 2 2 0; KDone 12 true []; KFlush 13 0 1; KDone 13 true [];
    KFill 1 (repeat (fill 0) 4); KRead 10 2 2 0 4 1;
    KDone 10 true [Some (ex_enc 0 (fill 100)); Some (ex_enc 1 (fill 7)); Some (ex_enc 2 (fill 102)); Some (ex_enc 3 (fill 103))] ].

Definition ex_fes : list (fevent GuestModel.sector) :=
  [ FFill 0 [ex_enc 0 (fill 100); ex_enc 1 (fill 101)]; FWrite 3 0 0 0 2 0; FSubmit 0 1; FMove 3 1; FMove 3 0; FComplete 3 Full; FPoll 0;
    FFlush 4 0 0; FSubmit 0 1; FComplete 4 Full; FPoll 0;
    FFill 1 [ex_enc 1 (fill 7)]; FWrite 1 1 0 1 1 1; FSubmit 1 1; FMove 1 0; FComplete 1 Full; FPoll 1;
    FFlush 9 1 0; FSubmit 1 1; FComplete 9 Full; FPoll 1;
    FCrash (fun _ => 0);
    FFill 0 [ex_enc 2 (fill 102); ex_enc 3 (fill 103)]; FWrite 12 0 1 2 2 0; FSubmit 0 1; FMove 12 0; FMove 12 1; FComplete 12 Full; FPoll 0;
    FFlush 13 0 1; FSubmit 0 1; FComplete 13 Full; FPoll 0;
    FFill 1 (repeat (fill 0) 4); FRead 10 2 2 0 4 1; FSubmit 2 1; FMove 10 3; FMove 10 1; FMove 10 0; FMove 10 2; FComplete 10 Full; FPoll 2 ].

Definition ex_below : list (titem GuestModel.sector) :=
  [ TIssue 3 0 0 (RWrite 0 [ex_enc 0 (fill 100); ex_enc 1 (fill 101)]); TDone 3 0 0 true []; TIssue 4 0 0 RFlush; TDone 4 0 0 true [];
    TIssue 1 1 0 (RWrite 1 [ex_enc 1 (fill 7)]); TDone 1 1 0 true []; TIssue 9 1 0 RFlush; TDone 9 1 0 true []; TCrash;
    TIssue 12 0 1 (RWrite 2 [ex_enc 2 (fill 102); ex_enc 3 (fill 103)]); TDone 12 0 1 true []; TIssue 13 0 1 RFlush;
    TDone 13 0 1 true []; TIssue 10 2 2 (RRead 0 4);
    TDone 10 2 2 true [Some (ex_enc 0 (fill 100)); Some (ex_enc 1 (fill 7)); Some (ex_enc 2 (fill 102)); Some (ex_enc 3 (fill 103))] ].

(** The layers above are those of C79_nonvacuous, with the same history [ex_between]
    between the lazy and the encrypting device. *)
Example C82_nonvacuous :
  (exists s, krun ex_enc ex_enc new_kdev ex_kes = Some (s, LayerProps.ex_between, ex_below)) /\
  all_buffers_ok ex_enc ex_enc new_kdev ex_kes /\
  exists f, on_a_file (target GuestProps.ex_cfg) LayerProps.ex_stored f ex_below /\ cur_cell (f_cell f 1) = Some (ex_enc 1 (fill 7)).
Proof.
  split.
  { assert (E : option_map (fun x => (snd (fst x), snd x)) (krun ex_enc ex_enc new_kdev ex_kes) = Some (LayerProps.ex_between, ex_below))
      by (vm_compute; reflexivity).
    destruct (krun ex_enc ex_enc new_kdev ex_kes) as [[[s g] b]|]; cbn [option_map fst snd] in E; [|discriminate E].
    injection E as -> ->. eauto. }
  split.
  { apply (all_buffers_sound 14); [intros n _; reflexivity|vm_compute; reflexivity]. }
  assert (E : option_map (fun x => (snd x, cur_cell (f_cell (fst x) 1)))
      (frun 512 1 false false 4 (new_fdev (target GuestProps.ex_cfg) LayerProps.ex_stored) ex_fes) = Some (ex_below, Some (ex_enc 1 (fill 7))))
    by (vm_compute; reflexivity).
  destruct (frun 512 1 false false 4 (new_fdev (target GuestProps.ex_cfg) LayerProps.ex_stored) ex_fes) as [[f b]|] eqn:R; cbn [option_map fst snd] in E; [|discriminate E].
  assert (Eb : b = ex_below) by exact (f_equal (fun o => match o with Some x => fst x | None => [] end) E).
  apply (f_equal (fun o => match o with Some x => snd x | None => None end)) in E. cbn [snd] in E. subst b. exists f. split; [|exact E]. exists 4%N, 3072%N, false, false, ex_fes.
  split; [reflexivity|]. split; [reflexivity|]. split.
  { apply (calls_sound 14); [intros n _; reflexivity|vm_compute; reflexivity]. }
  split; [|exact R]. intros n k H. cbn [ex_fes In] in H. repeat (destruct H as [H|H]; [discriminate H|]). exact H.
Qed.

Print Assumptions C82_encrypted_over_any_disk.
Print Assumptions C82_keeps_the_contract.
Print Assumptions C82_base_sees_cipher_text.
Print Assumptions C82_encrypted_file.
Print Assumptions C82_lazy_encrypted_file.
Print Assumptions C82_guest_of_a_file.
Print Assumptions C82_driver_of_a_file.
Print Assumptions C82_guest_of_an_encrypted_file.
