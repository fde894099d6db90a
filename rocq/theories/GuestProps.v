(** C78: the guest of a running backend uses an ordinary disk.

    [session ... g P tr gtr] (GuestSpec.v): the backend, started with any guest
    memory and driven by a conforming driver on any number of queues, came to state
    [g]; [tr] passed between its threads and its block device, [gtr] is what the
    guest itself noted: the requests in its descriptor chains, and status bytes and
    data found in its memory when a chain came back on a used ring. *)
From Coq Require Import List NArith ZArith Arith Bool Lia ZifyBool ZifyNat ZifyN.
From Verif Require Import Base BaseFacts DiskSpec TraceSpec TraceFacts VhostModel VhostSpec VhostProofs
  GuestModel GuestSpec GuestProofs.
From Verif Require LazyModel LazySpec LazyProps CryptModel CryptProps MetadataModel.
Import ListNotations.
Local Open Scope N_scope.
Ltac Zify.zify_post_hook ::= Z.div_mod_to_equations.

(** If the device behaved as an ordinary disk towards the backend, the guest sees an
    ordinary disk of the same size and initial contents, holding the same data at
    the end. *)
Theorem C78_guest_sees_a_disk : forall valid qsize did nslots bufsize size m0 g P tr gtr contents d,
  session valid qsize did nslots bufsize size m0 g P tr gtr ->
  (forall x, (x < size)%nat -> N.of_nat (length (contents x)) = 512) ->
  disk_behaviour size contents tr d ->
  exists d', disk_behaviour size contents gtr d' /\ d_hist d' = d_hist d.
Proof.
  intros * S Hc (es & R).
  destruct (sim_session valid qsize did nslots bufsize size m0 contents g P tr gtr Hc S es d R) as (es' & d' & R' & I).
  exists d'. split; [exists es'; exact R'|apply I].
Qed.

(** So in the guest's own notes completions match requests, reads return the initial
    contents or data the guest wrote to that sector, and a completed write is seen
    by later reads, across power failures once it was flushed. *)
Theorem C78_guest_history : forall valid qsize did nslots bufsize size m0 g P tr gtr contents d,
  session valid qsize did nslots bufsize size m0 g P tr gtr ->
  (forall x, (x < size)%nat -> N.of_nat (length (contents x)) = 512) ->
  disk_behaviour size contents tr d ->
  completions_match gtr /\ reads_return_written size contents gtr /\ reads_see_writes size gtr.
Proof.
  intros * S Hc D. destruct (C78_guest_sees_a_disk _ _ _ _ _ _ _ _ _ _ _ _ _ S Hc D) as (d' & D' & _).
  split; [eapply disk_completions_match; eauto|].
  split; [eapply disk_reads_return_written; eauto|eapply disk_reads_see_writes; eauto].
Qed.

(** The backend does not get stuck, and a chain that comes back is always one the
    guest waits for: whatever a conforming driver or the device does next, the
    backend takes the event and the guest can make sense of it. *)
Theorem C78_goes_on : forall valid qsize did nslots bufsize size m0 g P tr gtr contents e,
  session valid qsize did nslots bufsize size m0 g P tr gtr ->
  (forall x, (x < size)%nat -> N.of_nat (length (contents x)) = 512) ->
  driver_ok valid qsize size g P e ->
  (exists d, disk_behaviour size contents
     (match e with GDone n q id ok data => tr ++ [TDone n q id ok data] | _ => tr end) d) ->
  exists g' t P' w, gstep valid qsize did nslots bufsize g e = Ok (g', t) /\
    session valid qsize did nslots bufsize size m0 g' P' (tr ++ t) (gtr ++ w).
Proof.
  intros * S Hc D (d & es & R).
  assert (exists g' t P' w, gstep valid qsize did nslots bufsize g e = Ok (g', t) /\ watch valid g e g' P P' w)
    as (g' & t & P' & w & G & W).
  { destruct e as [q c n|n q id ok data|q ei needs|a b|m].
    2:{ destruct (drun_cut _ _ _ _ _ _ R) as (e1 & e2 & dm & R1 & R2).
        destruct (sim_session valid qsize did nslots bufsize size m0 contents g P tr gtr Hc S _ _ R1) as (es' & d' & R' & I).
        eapply goes_on; eauto. }
    all: destruct (sim_session valid qsize did nslots bufsize size m0 contents g P tr gtr Hc S _ _ R) as (es' & d' & R' & I);
      apply (goes_on valid qsize did nslots bufsize size g P d d' _ es d I D Logic.I). }
  exists g', t, P', w. split; auto. eapply s_event; eauto.
Qed.

(** Over a lazy device (C06): the guest sees a disk that holds the image overlaid on
    the base device at first, and what the device holds logically at the end. *)
Theorem C78_guest_of_a_lazy_device : forall valid qsize did nslots bufsize m0 g P tr gtr
  (c : LazyModel.cfg sector) base h es,
  LazySpec.well_configured c h ->
  (forall x, (x < LazyModel.target c)%nat -> N.of_nat (length (LazySpec.initial_contents c base h x)) = 512) ->
  session valid qsize did nslots bufsize (LazyModel.target c) m0 g P tr gtr ->
  tr = LazySpec.history c base h es ->
  exists d', disk_behaviour (LazyModel.target c) (LazySpec.initial_contents c base h) gtr d' /\
    forall x, (x < LazyModel.target c)%nat -> cur (d_hist d' x) = LazySpec.logical c (LazySpec.reached c base h es) x.
Proof.
  intros * WC Hc S ->. destruct (LazyProps.C06_lazy_device_is_a_disk c base h WC es) as (d & D & E).
  destruct (C78_guest_sees_a_disk _ _ _ _ _ _ _ _ _ _ _ _ _ S Hc D) as (d' & D' & Eh).
  exists d'. split; auto. intros x Hx.
  transitivity (cur (d_hist d x)); [exact (f_equal (fun f => cur (f x)) Eh)|auto].
Qed.

(** Over an encrypted device (C20): the guest sees a disk holding the decrypted
    sectors, before and after. *)
Theorem C78_guest_of_an_encrypted_device : forall valid qsize did nslots bufsize size m0 g P tr gtr
  (enc dec : nat -> sector -> sector) stored es s,
  (forall x v, dec x (enc x v) = v) ->
  (forall x, (x < size)%nat -> N.of_nat (length (dec x (stored x))) = 512) ->
  CryptModel.calls_ok enc dec size (CryptModel.new_cdev stored) es ->
  CryptModel.crun enc dec size (CryptModel.new_cdev stored) es = Some (s, tr) ->
  session valid qsize did nslots bufsize size m0 g P tr gtr ->
  exists d', disk_behaviour size (fun x => dec x (stored x)) gtr d' /\
    forall x, cur (d_hist d' x) = option_map (dec x) (cur (d_hist (CryptModel.c_base s) x)).
Proof.
  intros * Hi Hc C R S. destruct (CryptProps.C20_encrypted_device_is_a_disk _ enc dec size Hi stored es s tr C R) as (_ & d & D & E).
  destruct (C78_guest_sees_a_disk _ _ _ _ _ _ _ _ _ _ _ _ _ S Hc D) as (d' & D' & Eh).
  exists d'. split; auto. intros x.
  transitivity (cur (d_hist d x)); [exact (f_equal (fun f => cur (f x)) Eh)|apply E].
Qed.

(** *** A session: a guest with two queues on the lazy device of LazyProps.v, with
    sectors of 512 bytes.  It writes sector 1 and flushes; the power fails; it reads
    sectors 0 to 3 into two buffers. *)
Definition ex_valid (a : N) : bool := a <? 16384.
Definition ex_mem (a : N) : byte :=
  if a =? 16 then 1 else if a =? 24 then 1 else if a =? 48 then 4 else if a <? 64 then 0 else 7.
Definition ex_write : chain := mk_chain 5
  [mk_desc 16 16 false true; mk_desc 1500 12 false true; mk_desc 3000 500 false true; mk_desc 65 1 true false].
Definition ex_flush : chain := mk_chain 6 [mk_desc 48 16 false true; mk_desc 66 1 true false].
Definition ex_read : chain := mk_chain 4
  [mk_desc 0 16 false true; mk_desc 4096 1000 true true; mk_desc 8192 1048 true true; mk_desc 64 1 true false].
Definition fill (b : byte) : sector := repeat b (N.to_nat 512).
Definition ex_found : list (option sector) := map (fun b => Some (fill b)) [100; 7; 102; 103].
Definition ex_events : list gevent :=
  [GPop 0 ex_write 1; GDone 1 0 0 true []; GSignal 0 false true; GPop 0 ex_flush 9; GDone 9 0 0 true []; GCrash ex_mem;
   GPop 1 ex_read 10; GStore 48 0; GDone 10 1 2 true ex_found].

Definition ex_cfg : LazyModel.cfg sector :=
  LazyModel.mk_cfg 2 3 2 6 4 false (fun x => fill (100 + N.of_nat x)) (fill 0) true false false.
Definition ex_base (x : nat) : sector := fill (N.of_nat x).
Definition ex_lazy : list (LazyModel.event sector) :=
  [ LazyModel.EAdd 0 0 (RWrite 1 [fill 7]); LazyModel.EWRecv; LazyModel.EWRecv; LazyModel.EWStartFetch true;
    LazyModel.EWSrcDone 2 true; LazyModel.EApply 3 1; LazyModel.EApply 3 0; LazyModel.EDone 3 true; LazyModel.EDone 4 true;
    LazyModel.EWTakeFinished; LazyModel.EWStartWrite; LazyModel.EMApply 5; LazyModel.EWMetaDone 5 true;
    LazyModel.EWMetaDone 6 true; LazyModel.EWStartWrite; LazyModel.EMApply 7; LazyModel.EWMetaDone 7 true;
    LazyModel.EWMetaDone 8 true; LazyModel.EFront 0; LazyModel.EApply 1 0; LazyModel.EDone 1 true;
    LazyModel.EAdd 0 0 RFlush; LazyModel.EDone 9 true; LazyModel.ECrash (fun _ => 0%nat) (fun _ => 0%nat);
    LazyModel.EAdd 1 2 (RRead 0 4); LazyModel.EWRecv; LazyModel.EWStartFetch true; LazyModel.EWSrcDone 11 true;
    LazyModel.EApply 12 0; LazyModel.EApply 12 1; LazyModel.EDone 12 true; LazyModel.EDone 13 true; LazyModel.EWTakeFinished;
    LazyModel.EWStartWrite; LazyModel.EMApply 14; LazyModel.EWMetaDone 14 true; LazyModel.EWMetaDone 15 true;
    LazyModel.EFront 1; LazyModel.ESample 10 0; LazyModel.ESample 10 1; LazyModel.ESample 10 2; LazyModel.ESample 10 3;
    LazyModel.EDone 10 true ].

(** Stepping through a session without writing the states down. *)
Definition next (g : gst) (e : gevent) : gst :=
  match gstep ex_valid 8 [65] 2 512 g e with Ok (g', _) => g' | _ => g end.
Definition emitted (g : gst) (e : gevent) : list (titem sector) :=
  match gstep ex_valid 8 [65] 2 512 g e with Ok (_, t) => t | _ => [] end.
Notation ex_session := (session ex_valid 8 [65] 2 512 6 ex_mem).

Lemma ex_step : forall g P tr gtr e P' w,
  ex_session g P tr gtr -> is_ok (gstep ex_valid 8 [65] 2 512 g e) = true ->
  driver_ok ex_valid 8 6 g P e -> watch ex_valid g e (next g e) P P' w ->
  ex_session (next g e) P' (tr ++ emitted g e) (gtr ++ w).
Proof.
  intros * S Ok D W. eapply s_event; eauto. unfold next, emitted.
  destruct (gstep ex_valid 8 [65] 2 512 g e) as [[g' t]| |]; [reflexivity|discriminate|discriminate].
Qed.

Definition rq_w : request := mk_request TOut [(1500, 12); (3000, 500)] 1 65.
Definition rq_f : request := mk_request TFlush [] 0 66.
Definition rq_r : request := mk_request TIn [(4096, 1000); (8192, 1048)] 0 64.

Lemma ex_pop : forall g P q c n rq r, parse ex_valid (g_mem g) c = Ok rq ->
  is_io rq -> asks (g_mem g) rq r -> watch ex_valid g (GPop q c n) (next g (GPop q c n)) P
    (mk_pending q (c_head c) n rq :: P) [TIssue n q (N.to_nat (c_head c)) r].
Proof. intros * E Io A. apply parse_ok in E as (h & ds & st & B). eapply w_io; eauto. Qed.

Lemma ex_driver : forall g P q c n rq, parse ex_valid (g_mem g) c = Ok rq -> c_head c < 8 ->
  P = [] -> total_len (rq_data rq) < 2 ^ 32 -> total_len (rq_data rq) mod 512 = 0 ->
  rq_sector rq + total_len (rq_data rq) / 512 <= 6 -> rq_type rq <> TGetId ->
  segs_valid ex_valid (rq_data rq) -> segs_disjoint (rq_data rq) -> ~ in_segs (rq_status rq) (rq_data rq) ->
  driver_ok ex_valid 8 6 g P (GPop q c n).
Proof.
  intros * E Hq -> Hl Hm Hz Ht Hv Hd Hs. split; [exact Hq|]. split; [intros ? ? []|].
  apply parse_ok in E as (h & ds & st & B). exists rq, h, ds, st.
  split; [exact B|]. split; [exact Hl|]. split; [intros; contradiction|].
  split; intros _; [split; [exact Hv|]; split; [exact Hm|exact Hz]|split; assumption].
Qed.

Lemma rq_segs : forall rq, rq = rq_w \/ rq = rq_f \/ rq = rq_r ->
  segs_valid ex_valid (rq_data rq) /\ segs_disjoint (rq_data rq) /\ ~ in_segs (rq_status rq) (rq_data rq).
Proof.
  intros rq H. repeat split.
  - intros x (s & Hin & Hs). unfold in_seg in Hs. unfold ex_valid.
    destruct H as [->|[->| ->]]; cbn [rq_w rq_f rq_r rq_data In] in Hin;
      repeat (destruct Hin as [<-|Hin]; [cbn [fst snd] in Hs; lia|]); destruct Hin.
  - destruct H as [->|[->| ->]]; cbn [rq_w rq_f rq_r rq_data segs_disjoint];
      repeat match goal with |- _ /\ _ => split | |- True => exact Logic.I end; intros x Hx (s & Hin & Hs); unfold in_seg in *;
      cbn [In] in Hin; repeat (destruct Hin as [<-|Hin]; [cbn [fst snd] in *; lia|]); destruct Hin.
  - intros (s & Hin & Hs). unfold in_seg in Hs.
    destruct H as [->|[->| ->]]; cbn [rq_w rq_f rq_r rq_data rq_status In] in *;
      repeat (destruct Hin as [<-|Hin]; [cbn [fst snd] in Hs; lia|]); destruct Hin.
Qed.

Lemma sectors_by_computation : forall l v,
  (forallb (fun s => N.of_nat (length s) =? 512) v) && (if list_eq_dec N.eq_dec (concat v) l then true else false) = true ->
  is_sectors l v.
Proof.
  intros l v H. apply andb_true_iff in H as [H1 H2]. destruct (list_eq_dec N.eq_dec (concat v) l); [|discriminate].
  split; [assumption|]. apply Forall_forall. intros s Hs. rewrite forallb_forall in H1. apply N.eqb_eq, H1, Hs.
Qed.

Definition ex_tr : list (titem sector) :=
  [TIssue 1 0 0 (RWrite 1 [fill 7]); TDone 1 0 0 true []; TIssue 9 0 0 RFlush; TDone 9 0 0 true []; TCrash;
   TIssue 10 1 2 (RRead 0 4); TDone 10 1 2 true ex_found].
Definition ex_gtr : list (titem sector) :=
  [TIssue 1 0 5 (RWrite 1 [fill 7]); TDone 1 0 5 true []; TIssue 9 0 6 RFlush; TDone 9 0 6 true []; TCrash;
   TIssue 10 1 4 (RRead 0 4); TDone 10 1 4 true ex_found].

Ltac ex_pop_tac rq r :=
  match goal with |- watch _ ?g (GPop ?q ?c ?n) _ _ _ _ =>
    refine (ex_pop g [] q c n rq r _ _ _); [vm_compute; reflexivity|unfold is_io; cbn; tauto|] end.
Ltac ex_driver_tac rq :=
  match goal with |- driver_ok _ _ _ ?g _ (GPop ?q ?c ?n) =>
    apply (ex_driver g [] q c n rq);
      [vm_compute; reflexivity|vm_compute; reflexivity|reflexivity|vm_compute; reflexivity|vm_compute; reflexivity
      |vm_compute; discriminate|vm_compute; discriminate|apply rq_segs; tauto|apply rq_segs; tauto|apply rq_segs; tauto] end.
Ltac ex_done_tac h n rq ok data :=
  match goal with |- watch _ ?g ?e ?g' _ _ _ =>
    refine (w_done ex_valid g e g' _ _ _ _ _ h n rq ok data [] [] eq_refl _ _); [vm_compute; reflexivity|] end.

Example C78_nonvacuous : exists g, ex_session g [] ex_tr ex_gtr.
Proof.
  pose proof (s_start ex_valid 8 [65] 2 512 6 ex_mem) as S. set (g0 := ginit 2 512 ex_mem) in S.
  apply (ex_step g0 _ _ _ (GPop 0 ex_write 1) [mk_pending 0 5 1 rq_w] [TIssue 1 0 5 (RWrite 1 [fill 7])]) in S;
    [|vm_compute; reflexivity|ex_driver_tac rq_w|].
  2:{ ex_pop_tac rq_w (@RWrite sector 1 [fill 7]). refine (asks_write _ rq_w [fill 7] _ _); [reflexivity|].
      apply sectors_by_computation. vm_compute. reflexivity. }
  set (g1 := next g0 _) in S.
  apply (ex_step g1 _ _ _ (GDone 1 0 0 true []) [] [TDone 1 0 5 true []]) in S; [|vm_compute; reflexivity|exact Logic.I|].
  2:{ ex_done_tac 5 1%nat rq_w true (@nil (option sector)). apply finds_done; [vm_compute; reflexivity|discriminate]. }
  set (g2 := next g1 _) in S.
  apply (ex_step g2 _ _ _ (GSignal 0 false true) [] []) in S; [|vm_compute; reflexivity|exact Logic.I|eapply w_signal; reflexivity].
  set (g3 := next g2 _) in S.
  apply (ex_step g3 _ _ _ (GPop 0 ex_flush 9) [mk_pending 0 6 9 rq_f] [TIssue 9 0 6 RFlush]) in S;
    [|vm_compute; reflexivity|ex_driver_tac rq_f|].
  2:{ ex_pop_tac rq_f (@RFlush sector). apply asks_flush. reflexivity. }
  set (g4 := next g3 _) in S.
  apply (ex_step g4 _ _ _ (GDone 9 0 0 true []) [] [TDone 9 0 6 true []]) in S; [|vm_compute; reflexivity|exact Logic.I|].
  2:{ ex_done_tac 6 9%nat rq_f true (@nil (option sector)). apply finds_done; [vm_compute; reflexivity|discriminate]. }
  set (g5 := next g4 _) in S.
  apply (ex_step g5 _ _ _ (GCrash ex_mem) [] [TCrash]) in S; [|vm_compute; reflexivity|exact Logic.I|eapply w_crash; reflexivity].
  set (g6 := next g5 _) in S.
  apply (ex_step g6 _ _ _ (GPop 1 ex_read 10) [mk_pending 1 4 10 rq_r] [TIssue 10 1 4 (RRead 0 4)]) in S;
    [|vm_compute; reflexivity|ex_driver_tac rq_r|].
  2:{ ex_pop_tac rq_r (@RRead sector 0 4). refine (asks_read _ rq_r 4 _ _); reflexivity. }
  set (g7 := next g6 _) in S.
  apply (ex_step g7 _ _ _ (GStore 48 0) [mk_pending 1 4 10 rq_r] []) in S; [|vm_compute; reflexivity|exact Logic.I|eapply w_store; reflexivity].
  set (g8 := next g7 _) in S.
  apply (ex_step g8 _ _ _ (GDone 10 1 2 true ex_found) [] [TDone 10 1 4 true ex_found]) in S; [|vm_compute; reflexivity|exact Logic.I|].
  2:{ ex_done_tac 4 10%nat rq_r true ex_found.
      change ex_found with (map Some (map fill [100; 7; 102; 103])).
      apply finds_data; [vm_compute; reflexivity|reflexivity|]. apply sectors_by_computation. vm_compute. reflexivity. }
  eexists. refine (eq_ind _ (fun t => ex_session _ [] t ex_gtr) S _ _). vm_compute. reflexivity.
Qed.

(** The same up to the power failure. *)
Example C78_up_to_the_failure : exists g, ex_session g [] (firstn 5 ex_tr) (firstn 5 ex_gtr).
Proof.
  pose proof (s_start ex_valid 8 [65] 2 512 6 ex_mem) as S. set (g0 := ginit 2 512 ex_mem) in S.
  apply (ex_step g0 _ _ _ (GPop 0 ex_write 1) [mk_pending 0 5 1 rq_w] [TIssue 1 0 5 (RWrite 1 [fill 7])]) in S;
    [|vm_compute; reflexivity|ex_driver_tac rq_w|].
  2:{ ex_pop_tac rq_w (@RWrite sector 1 [fill 7]). refine (asks_write _ rq_w [fill 7] _ _); [reflexivity|].
      apply sectors_by_computation. vm_compute. reflexivity. }
  set (g1 := next g0 _) in S.
  apply (ex_step g1 _ _ _ (GDone 1 0 0 true []) [] [TDone 1 0 5 true []]) in S; [|vm_compute; reflexivity|exact Logic.I|].
  2:{ ex_done_tac 5 1%nat rq_w true (@nil (option sector)). apply finds_done; [vm_compute; reflexivity|discriminate]. }
  set (g2 := next g1 _) in S.
  apply (ex_step g2 _ _ _ (GSignal 0 false true) [] []) in S; [|vm_compute; reflexivity|exact Logic.I|eapply w_signal; reflexivity].
  set (g3 := next g2 _) in S.
  apply (ex_step g3 _ _ _ (GPop 0 ex_flush 9) [mk_pending 0 6 9 rq_f] [TIssue 9 0 6 RFlush]) in S;
    [|vm_compute; reflexivity|ex_driver_tac rq_f|].
  2:{ ex_pop_tac rq_f (@RFlush sector). apply asks_flush. reflexivity. }
  set (g4 := next g3 _) in S.
  apply (ex_step g4 _ _ _ (GDone 9 0 0 true []) [] [TDone 9 0 6 true []]) in S; [|vm_compute; reflexivity|exact Logic.I|].
  2:{ ex_done_tac 6 9%nat rq_f true (@nil (option sector)). apply finds_done; [vm_compute; reflexivity|discriminate]. }
  set (g5 := next g4 _) in S.
  apply (ex_step g5 _ _ _ (GCrash ex_mem) [] [TCrash]) in S; [|vm_compute; reflexivity|exact Logic.I|eapply w_crash; reflexivity].
  eexists. refine (eq_ind _ (fun t => ex_session _ [] t (firstn 5 ex_gtr)) S _ _). vm_compute. reflexivity.
Qed.

Example C78_lazy_nonvacuous : ex_tr = LazySpec.history ex_cfg ex_base LazyProps.ex_h ex_lazy /\
  LazySpec.well_configured ex_cfg LazyProps.ex_h /\
  (forall x, N.of_nat (length (LazySpec.initial_contents ex_cfg ex_base LazyProps.ex_h x)) = 512).
Proof.
  split; [vm_compute; reflexivity|]. split.
  - apply (LazyProps.fresh_device_well_configured ex_cfg 2); cbn; auto with arith.
  - intros x. unfold LazySpec.initial_contents. destruct (_ && _ && _); cbn [ex_cfg LazyModel.image];
      unfold ex_base, fill; rewrite repeat_length; reflexivity.
Qed.

Print Assumptions C78_guest_sees_a_disk.
Print Assumptions C78_guest_history.
Print Assumptions C78_goes_on.
Print Assumptions C78_guest_of_a_lazy_device.
Print Assumptions C78_guest_of_an_encrypted_device.
