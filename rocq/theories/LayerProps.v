(** C79: the layers of a backend can be put together.

    C06, C20 and C78 are about one layer each.  Here the lazy device is a program
    over a base device it only knows through calls and completions (LayerModel.v):
    [orun c (oinit c h) oes = Some (so, g, b)] says that it ran to state [so], with
    the history [g] towards its user and the history [b] towards its base. *)
From Coq Require Import List Arith NArith Bool Lia.
Import ListNotations.
From Verif Require Import Base DiskSpec LazyState MetadataModel LazyModel LazySpec LazyProps CryptModel CryptProofs
  LayerSpec LayerModel LayerIds LayerProofs LayerStack.
From Verif Require CryptProps GuestModel GuestSpec GuestProps.

(** The requests made of the lazy device lie inside its metadata. *)
Definition requests_fit {V} (c : cfg V) (oes : list (oevent V)) : Prop :=
  forall q id r, In (OOwn (EAdd q id r)) oes -> in_bounds c r.

Lemma fits {V} (c : cfg V) oes : requests_fit c oes -> forall e, In e oes -> event_fits c e.
Proof. intros H [[]| | |] He; cbn; auto. eapply H; eauto. Qed.

(** If the base device, whatever it is, behaves as an ordinary disk, so does the
    lazy device: one holding the base overlaid with the image at first; and at the
    end, in every sector, what the base holds if the stripe is released and the
    image's sector otherwise. *)
Theorem C79_lazy_over_any_disk : forall (V : Type) (c : cfg V) (base : nat -> V) h oes so g b d,
  well_configured c h -> requests_fit c oes ->
  orun c (oinit c h) oes = Some (so, g, b) ->
  disk_behaviour (target c) base b d ->
  exists d', disk_behaviour (target c) (initial_contents c base h) g d' /\
    forall x, x < target c ->
      cur (d_hist d' x) = if released (shf so (x / ssc c)) then cur (d_hist d x) else Some (image c x).
Proof.
  intros V c base h oes so g b d WC Fe Hr Hb.
  destruct (open_is_closed c base h WC oes so g b d (fits c oes Fe) Hr Hb) as (es & <- & _ & Eh & Es & _).
  destruct (C06_lazy_device_is_a_disk c base h WC es) as (d' & D' & E').
  exists d'. split; [exact D'|]. intros x Hx. rewrite (E' x Hx). unfold logical. rewrite Es, Eh. reflexivity.
Qed.

(** As long as its user does not reuse the id of a request in flight, neither does
    the lazy device towards its base, with requests of its own in between. *)
Theorem C79_lazy_keeps_the_contract : forall (V : Type) (c : cfg V) (base : nat -> V) h oes so g b,
  well_configured c h -> requests_fit c oes ->
  orun c (oinit c h) oes = Some (so, g, b) ->
  respects (target c) (initial_contents c base h) g -> respects (target c) base b.
Proof. intros V c base h oes so g b WC Fe. apply (respects_base c base h WC). apply fits, Fe. Qed.

(** Neither do the threads of a backend. *)
Theorem C79_backend_keeps_the_contract : forall valid qsize did nslots bufsize size m0 g P tr gtr contents,
  GuestSpec.session valid qsize did nslots bufsize size m0 g P tr gtr ->
  (forall x, x < size -> N.of_nat (length (contents x)) = 512%N) ->
  respects size contents tr.
Proof. exact backend_respects. Qed.

(** The encrypting device is a disk for a caller that keeps the contract, where "in
    flight" is what the caller itself can tell from the history. *)
Theorem C79_encrypted_device_is_a_disk :
  forall (V : Type) (enc dec : nat -> V -> V) size stored (ces : list (cevent V)) s tr,
  (forall x v, dec x (enc x v) = v) ->
  crun enc dec size (new_cdev stored) ces = Some (s, tr) ->
  bufs_ok enc dec size (new_cdev stored) ces ->
  respects size (fun x => dec x (stored x)) tr ->
  exists d, disk_behaviour size (fun x => dec x (stored x)) tr d /\
    forall x, cur (d_hist d x) = option_map (dec x) (cur (d_hist (c_base s) x)).
Proof.
  intros V enc dec size stored ces s tr Hi R Hb Hr.
  pose proof (contract_met enc dec size Hi stored ces s tr R Hb Hr) as C.
  exact (proj2 (CryptProps.C20_encrypted_device_is_a_disk _ enc dec size Hi stored ces s tr C R)).
Qed.

(** The lazy device over the encrypting device over an ordinary disk. *)
Theorem C79_lazy_over_encrypted : forall (V : Type) (c : cfg V) h oes so g b
  (enc dec : nat -> V -> V) stored ces s,
  well_configured c h -> requests_fit c oes ->
  orun c (oinit c h) oes = Some (so, g, b) ->
  (forall x v, dec x (enc x v) = v) ->
  crun enc dec (target c) (new_cdev stored) ces = Some (s, b) ->
  bufs_ok enc dec (target c) (new_cdev stored) ces ->
  respects (target c) (initial_contents c (fun x => dec x (stored x)) h) g ->
  exists d, disk_behaviour (target c) (initial_contents c (fun x => dec x (stored x)) h) g d /\
    forall x, x < target c ->
      cur (d_hist d x) = if released (shf so (x / ssc c)) then option_map (dec x) (cur (d_hist (c_base s) x))
                         else Some (image c x).
Proof.
  intros V c h oes so g b enc dec stored ces s WC Fe Hr Hi R Hb Hg.
  pose proof (C79_lazy_keeps_the_contract V c _ h oes so g b WC Fe Hr Hg) as Hbase.
  destruct (C79_encrypted_device_is_a_disk V enc dec (target c) stored ces s b Hi R Hb Hbase) as (d & D & E).
  destruct (C79_lazy_over_any_disk V c _ h oes so g b d WC Fe Hr D) as (d' & D' & E').
  exists d'. split; [exact D'|]. intros x Hx. rewrite (E' x Hx), E. reflexivity.
Qed.

(** The whole stack: a guest on a backend on a lazy device on an encrypting device on
    an ordinary disk.  What the guest notes ([gtr]) is a history of an ordinary disk
    that first holds the decrypted base overlaid with the image, and at the end what
    the disk at the bottom holds, decrypted, in released stripes and the image's
    sectors in the others. *)
Theorem C79_guest_of_the_whole_stack : forall valid qsize did nslots bufsize m0 gs P g gtr
  (c : cfg GuestModel.sector) h oes so b (enc dec : nat -> GuestModel.sector -> GuestModel.sector) stored ces s,
  GuestSpec.session valid qsize did nslots bufsize (target c) m0 gs P g gtr ->
  well_configured c h -> requests_fit c oes ->
  orun c (oinit c h) oes = Some (so, g, b) ->
  (forall x v, dec x (enc x v) = v) ->
  crun enc dec (target c) (new_cdev stored) ces = Some (s, b) ->
  bufs_ok enc dec (target c) (new_cdev stored) ces ->
  (forall x, x < target c ->
     N.of_nat (length (initial_contents c (fun x => dec x (stored x)) h x)) = 512%N) ->
  exists d, disk_behaviour (target c) (initial_contents c (fun x => dec x (stored x)) h) gtr d /\
    forall x, x < target c ->
      cur (d_hist d x) = if released (shf so (x / ssc c)) then option_map (dec x) (cur (d_hist (c_base s) x))
                         else Some (image c x).
Proof.
  intros valid qsize did nslots bufsize m0 gs P g gtr c h oes so b enc dec stored ces s S WC Fe Hr Hi R Hb Hc.
  pose proof (C79_backend_keeps_the_contract _ _ _ _ _ _ _ _ _ _ _ _ S Hc) as Hg.
  destruct (C79_lazy_over_encrypted _ c h oes so g b enc dec stored ces s WC Fe Hr Hi R Hb Hg) as (d & D & E).
  destruct (GuestProps.C78_guest_sees_a_disk _ _ _ _ _ _ _ _ _ _ _ _ _ S Hc D) as (d' & D' & Eh).
  exists d'. split; [exact D'|]. intros x Hx. rewrite <- (E x Hx). exact (f_equal (fun f => cur (f x)) Eh).
Qed.

(** *** The session of C78 on such a stack: the guest of GuestProps.v, the lazy device
    as there, and a cipher that depends on the sector. *)
Definition ex_enc (x : nat) (v : GuestModel.sector) : GuestModel.sector := map (N.lxor (N.of_nat (x + 1))) v.
Definition ex_stored (x : nat) : GuestModel.sector := ex_enc x (GuestProps.ex_base x).

Lemma ex_inverse x v : ex_enc x (ex_enc x v) = v.
Proof.
  unfold ex_enc. rewrite map_map. rewrite <- (map_id v) at 2. apply map_ext. intros a.
  rewrite <- N.lxor_assoc, N.lxor_nilpotent, N.lxor_0_l. reflexivity.
Qed.

Definition ex_open : list (oevent GuestModel.sector) :=
  map OOwn [ EAdd 0 0 (RWrite 1 [GuestProps.fill 7]); EWRecv; EWRecv; EWStartFetch true; EWSrcDone 2 true ] ++
  [ OScratch 0 0 (GuestProps.fill 55); OBase 3 true []; OBase 4 true [] ] ++
  map OOwn [ EWTakeFinished; EWStartWrite; EMApply 5; EWMetaDone 5 true; EWMetaDone 6 true; EWStartWrite; EMApply 7;
             EWMetaDone 7 true; EWMetaDone 8 true; EFront 0 ] ++
  [ OBase 1 true []; OOwn (EAdd 0 0 RFlush); OBase 9 true []; OCrash (fun _ => 0) ] ++
  map OOwn [ EAdd 1 2 (RRead 0 4); EWRecv; EWStartFetch true; EWSrcDone 11 true ] ++
  [ OBase 12 true []; OBase 13 true [] ] ++
  map OOwn [ EWTakeFinished; EWStartWrite; EMApply 14; EWMetaDone 14 true; EWMetaDone 15 true; EFront 1 ] ++
  [ OBase 10 true GuestProps.ex_found ].

Definition ex_crypt : list (cevent GuestModel.sector) :=
  [ CFill 0 [GuestProps.fill 100; GuestProps.fill 101]; CWrite 3 0 0 0 2 0; CBase (DApply 3 1); CBase (DApply 3 0); CDone 3 true;
    CFlush 4 0 0; CDone 4 true;
    CFill 1 [GuestProps.fill 7]; CWrite 1 1 0 1 1 1; CBase (DApply 1 0); CDone 1 true; CFlush 9 1 0; CDone 9 true;
    CCrash (fun _ => 0);
    CFill 0 [GuestProps.fill 102; GuestProps.fill 103]; CWrite 12 0 1 2 2 0; CBase (DApply 12 0); CBase (DApply 12 1); CDone 12 true;
    CFlush 13 0 1; CDone 13 true;
    CFill 1 (repeat (GuestProps.fill 0) 4); CRead 10 2 2 0 4 1;
    CBase (DSample 10 3); CBase (DSample 10 1); CBase (DSample 10 0); CBase (DSample 10 2); CDone 10 true ].

Lemma calls_bufs {V} (enc dec : nat -> V -> V) size : forall es s, calls_ok enc dec size s es -> bufs_ok enc dec size s es.
Proof.
  induction es as [|e es IH]; intros s H; [exact I|]. cbn [calls_ok bufs_ok] in *. destruct H as [H1 H2]. split.
  - destruct e; cbn [call_ok buf_ok] in *; tauto.
  - destruct (cstep enc dec size s e) as [[s1 t1]|]; auto.
Qed.

(** What passes between the lazy and the encrypting device. *)
Definition ex_between : list (titem GuestModel.sector) :=
  [ TIssue 3 0 0 (RWrite 0 [GuestProps.fill 100; GuestProps.fill 101]); TDone 3 0 0 true []; TIssue 4 0 0 RFlush; TDone 4 0 0 true [];
    TIssue 1 1 0 (RWrite 1 [GuestProps.fill 7]); TDone 1 1 0 true []; TIssue 9 1 0 RFlush; TDone 9 1 0 true []; TCrash;
    TIssue 12 0 1 (RWrite 2 [GuestProps.fill 102; GuestProps.fill 103]); TDone 12 0 1 true []; TIssue 13 0 1 RFlush;
    TDone 13 0 1 true []; TIssue 10 2 2 (RRead 0 4); TDone 10 2 2 true GuestProps.ex_found ].

Notation ex_base := (fun x => ex_enc x (ex_stored x)).

Example C79_nonvacuous :
  (exists gs, GuestSpec.session GuestProps.ex_valid 8 [65%N] 2 512 (target GuestProps.ex_cfg) GuestProps.ex_mem gs []
    GuestProps.ex_tr GuestProps.ex_gtr) /\
  well_configured GuestProps.ex_cfg ex_h /\ requests_fit GuestProps.ex_cfg ex_open /\
  (exists so, orun GuestProps.ex_cfg (oinit GuestProps.ex_cfg ex_h) ex_open = Some (so, GuestProps.ex_tr, ex_between) /\
     released (shf so 1) = true) /\
  (exists s, crun ex_enc ex_enc (target GuestProps.ex_cfg) (new_cdev ex_stored) ex_crypt = Some (s, ex_between) /\
     cur (d_hist (c_base s) 1) = Some (ex_enc 1 (GuestProps.fill 7))) /\
  bufs_ok ex_enc ex_enc (target GuestProps.ex_cfg) (new_cdev ex_stored) ex_crypt /\
  (forall x, N.of_nat (length (initial_contents GuestProps.ex_cfg ex_base ex_h x)) = 512%N).
Proof.
  split; [exact GuestProps.C78_nonvacuous|]. split; [apply GuestProps.C78_lazy_nonvacuous|]. split.
  { intros q id r Hin. cbn in Hin.
    repeat (destruct Hin as [Hin|Hin]; [try discriminate Hin; injection Hin as <- <- <-; cbn; lia|]). destruct Hin. }
  split.
  { assert (E2 : option_map (fun x => (snd (fst x), snd x, released (shf (fst (fst x)) 1)))
              (orun GuestProps.ex_cfg (oinit GuestProps.ex_cfg ex_h) ex_open) = Some (GuestProps.ex_tr, ex_between, true))
      by (vm_compute; reflexivity).
    destruct (orun GuestProps.ex_cfg (oinit GuestProps.ex_cfg ex_h) ex_open) as [[[so g] b]|]; cbn [option_map fst snd] in E2; [|discriminate E2].
    injection E2 as -> -> E3. eauto. }
  split.
  { assert (E2 : option_map (fun x => (snd x, cur (d_hist (c_base (fst x)) 1)))
              (crun ex_enc ex_enc (target GuestProps.ex_cfg) (new_cdev ex_stored) ex_crypt) =
              Some (ex_between, Some (ex_enc 1 (GuestProps.fill 7)))) by (vm_compute; reflexivity).
    destruct (crun ex_enc ex_enc (target GuestProps.ex_cfg) (new_cdev ex_stored) ex_crypt) as [[s t]|]; cbn [option_map fst snd] in E2; [|discriminate E2].
    injection E2 as -> E3. eauto. }
  split.
  - apply calls_bufs, (calls_okb_sound ex_enc ex_enc _ 14); [intros n _; reflexivity|vm_compute; reflexivity].
  - intros x. unfold initial_contents. destruct (_ && _ && _); cbn [GuestProps.ex_cfg image]; unfold ex_stored, ex_enc, GuestProps.ex_base, GuestProps.fill;
      rewrite ?map_length, repeat_length; reflexivity.
Qed.

(** Two requests of one guest channel are never in flight under one id, and a
    device that broke this would not meet the contract. *)
Example C79_contract_can_be_broken :
  ~ respects 4 (fun x => x) [TIssue 1 0 5 (RRead 0 1); TIssue 2 0 5 (RRead 1 1)].
Proof.
  intros H. apply (H [TIssue 1 0 5 (RRead 0 1)] 2 0 5 (RRead 1 1) [] eq_refl) with 1.
  - eexists. exists [DIssue 1 0 5 (RRead 0 1)]. reflexivity.
  - exists [], (RRead 0 1), []. split; [reflexivity|]. split; intros; intros [].
Qed.

Print Assumptions C79_lazy_over_any_disk.
Print Assumptions C79_lazy_keeps_the_contract.
Print Assumptions C79_backend_keeps_the_contract.
Print Assumptions C79_encrypted_device_is_a_disk.
Print Assumptions C79_lazy_over_encrypted.
Print Assumptions C79_guest_of_the_whole_stack.
