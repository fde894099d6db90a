(** C80: the kernel driver of a running ublk backend uses an ordinary disk.

    [session max depth size u P tr ktr] (UblkDiskSpec.v): the backend, driven by a
    conforming driver on any number of queues, came to state [u]; [tr] passed between
    its handlers and its block device, [ktr] is what the driver itself noted: the
    requests it handed over, and results and buffers that came back. *)
From Coq Require Import List NArith ZArith Arith Bool Lia ZifyBool ZifyNat ZifyN.
From Verif Require Import Base BaseFacts DiskSpec TraceSpec TraceFacts AheadFacts UblkModel UblkSpec UblkProofs
  GuestModel GuestSpec GuestProofs UblkDiskModel UblkDiskSpec UblkDiskProofs LazyState MetadataModel LazyModel LazySpec
  CryptModel LayerSpec LayerModel LayerIds LayerStack.
From Verif Require LayerProps.
Import ListNotations.
Local Open Scope N_scope.

Notation session := UblkDiskSpec.session.
Notation driver_ok := UblkDiskSpec.driver_ok.

(** If the device behaved as an ordinary disk towards the backend, the driver sees an
    ordinary disk of the same size and initial contents, holding the same data at the
    end: requests that wait in a handler, requests refused there and requests of other
    queues make no difference. *)
Theorem C80_driver_sees_a_disk : forall max depth size u P tr ktr contents d,
  max < 2 ^ 31 ->
  session max depth size u P tr ktr ->
  (forall x, (x < size)%nat -> N.of_nat (length (contents x)) = 512) ->
  disk_behaviour size contents tr d ->
  exists d', disk_behaviour size contents ktr d' /\ forall x, cur (d_hist d' x) = cur (d_hist d x).
Proof.
  intros * Hm S Hc (es & R). destruct (sim_session max depth size Hm contents u P tr ktr Hc S es d R) as (es' & d' & E & R' & I).
  exists d'. split; [exists es'; exact R'|]. intros x. eapply ahead_cur. apply I.
Qed.

(** So in the driver's own notes completions match requests, reads return the initial
    contents or data written to that sector, and a completed write is seen by later
    reads, across power failures once it was flushed. *)
Theorem C80_driver_history : forall max depth size u P tr ktr contents d,
  max < 2 ^ 31 ->
  session max depth size u P tr ktr ->
  (forall x, (x < size)%nat -> N.of_nat (length (contents x)) = 512) ->
  disk_behaviour size contents tr d ->
  completions_match ktr /\ reads_return_written size contents ktr /\ reads_see_writes size ktr.
Proof.
  intros * Hm S Hc D. destruct (C80_driver_sees_a_disk _ _ _ _ _ _ _ _ _ Hm S Hc D) as (d' & D' & _).
  split; [eapply disk_completions_match; eauto|].
  split; [eapply disk_reads_return_written; eauto|eapply disk_reads_see_writes; eauto].
Qed.

(** The backend does not get stuck, and a tag that comes back is always one the driver
    waits for, with a result that fits its request. *)
Theorem C80_goes_on : forall max depth size u P tr ktr contents e,
  max < 2 ^ 31 ->
  session max depth size u P tr ktr ->
  (forall x, (x < size)%nat -> N.of_nat (length (contents x)) = 512) ->
  driver_ok max depth size P ktr e ->
  (exists d, disk_behaviour size contents
     (match e with UPoll n q id ok data => tr ++ [TDone n q id ok data] | _ => tr end) d) ->
  exists u' t P' w, ustep max depth u e = Ok (u', t) /\
    session max depth size u' P' (tr ++ t) (ktr ++ w).
Proof.
  intros * Hm S Hc D (d & es & R).
  assert (exists u' t P' w, ustep max depth u e = Ok (u', t) /\ UblkDiskSpec.watch u e u' P P' w) as (u' & t & P' & w & G & W).
  { destruct e as [q tag buf fl st nr last n|q|n q id ok data|q|].
    3:{ destruct (drun_cut _ _ _ _ _ _ R) as (e1 & e2 & dm & R1 & R2). eapply (goes_on max depth size Hm contents); eauto. }
    all: eapply (goes_on max depth size Hm contents); eauto; exists []; reflexivity. }
  exists u', t, P', w. split; auto. eapply UblkDiskSpec.s_event; eauto.
Qed.

(** The steps [UEnqueue], [UPoll] and [UStop] are what the handler's loop (the model of
    C39) is made of, as long as submit succeeds. *)
Theorem C80_loop_is_these_steps : forall busy ps s,
  iteration busy true ps s =
  if match h_pending s with [] => true | _ => false end && negb busy then Ok (stop_draining s)
  else let! s1 := enqueue_n (length (h_pending s)) s in poll_each ps s1.
Proof. exact iteration_is_steps. Qed.

(** The handlers never reuse the id of a request in flight on the same channel. *)
Theorem C80_keeps_the_contract : forall max depth size u P tr ktr contents,
  max < 2 ^ 31 ->
  session max depth size u P tr ktr ->
  (forall x, (x < size)%nat -> N.of_nat (length (contents x)) = 512) ->
  respects size contents tr.
Proof.
  intros * Hm S Hc. induction S as [|u P tr ktr e u' t P' w S IH D G W].
  - intros [|? ?] n q id r t2 E; discriminate E.
  - intros t1 n q id r t2 E Hb m Hw.
    assert (Cut : (exists t3, tr = t1 ++ TIssue n q id r :: t3) \/ (exists t0, t1 = tr ++ t0 /\ t = t0 ++ TIssue n q id r :: t2)).
    { apply app_eq_app in E as (l & [[E1 E2]|[E1 E2]]); [|right; exists l; auto].
      destruct l as [|i l]; cbn in E2.
      - right. exists []. rewrite app_nil_r in *. subst tr. auto.
      - injection E2 as <- E2. left. exists l. auto. }
    destruct Cut as [(t3 & Et)|(t0 & -> & Et)]; [eapply IH; eauto|].
    destruct Hb as (d & des & Hd). destruct (drun_cut _ _ _ _ _ _ Hd) as (e1 & e2 & dm & R1 & R2).
    destruct (sim_session max depth size Hm contents _ _ _ _ Hc S _ _ R1) as (es' & d' & EE & _ & I).
    destruct (ustep_short max depth size Hm _ _ _ _ _ _ _ _ I G) as [->|(i & ->)]; [destruct t0; discriminate Et|].
    destruct t0 as [|? [|? ?]]; try discriminate Et. injection Et as -> _. rewrite app_nil_r in *.
    destruct e as [q1 tag buf fl st nr last n1|q1|n1 q1 id1 ok data|q1|].
    2:{ assert (q1 = q).
        { cbn [ustep] in G. destruct (enqueue_one _); cbn [bindr] in G; try discriminate G. injection G as _ G.
          unfold handed in G. destruct (skipn _ _) as [|o [|? ?]]; cbn [map] in G; try discriminate G. injection G as _ G _ _. exact G. }
        subst q1.
        destruct (proj1 (LayerIds.in_flight _ _ _ _ (ex_intro _ des Hd) m _ _) Hw) as (k & Ek).
        destruct (sim_session max depth size Hm contents _ _ _ _ Hc S _ _ Hd) as (es2 & d2 & E2 & _ & I2).
        destruct (v_ops _ _ _ _ _ _ _ _ I2 _ _ _ _ Ek) as (p & _ & _ & _ & X).
        rewrite (enqueue_free max depth size Hm _ _ _ _ _ _ _ _ _ _ I2 G) in X. discriminate X. }
    all: cbn [ustep] in G; try (destruct (handle _ _ _ _ _ _ _ _ _); cbn [bindr] in G; discriminate G);
      try (destruct (poll_all _ _); cbn [bindr] in G; discriminate G); discriminate G.
Qed.

(** The whole stack: the kernel driver on a ublk backend on a lazy device on an
    encrypting device on an ordinary disk. *)
Theorem C80_driver_of_the_whole_stack : forall max depth us P g ktr
  (c : cfg sector) h oes so b (enc dec : nat -> sector -> sector) stored ces s,
  max < 2 ^ 31 ->
  session max depth (target c) us P g ktr ->
  well_configured c h -> LayerProps.requests_fit c oes ->
  orun c (oinit c h) oes = Some (so, g, b) ->
  (forall x v, dec x (enc x v) = v) ->
  crun enc dec (target c) (new_cdev stored) ces = Some (s, b) ->
  bufs_ok enc dec (target c) (new_cdev stored) ces ->
  (forall x, (x < target c)%nat ->
     N.of_nat (length (initial_contents c (fun x => dec x (stored x)) h x)) = 512) ->
  exists d, disk_behaviour (target c) (initial_contents c (fun x => dec x (stored x)) h) ktr d /\
    forall x, (x < target c)%nat ->
      cur (d_hist d x) = if released (shf so (x / ssc c)) then option_map (dec x) (cur (d_hist (c_base s) x))
                         else Some (image c x).
Proof.
  intros * Hm S WC Fe Hr Hi R Hb Hc.
  pose proof (C80_keeps_the_contract _ _ _ _ _ _ _ _ Hm S Hc) as Hg.
  destruct (LayerProps.C79_lazy_over_encrypted _ c h oes so g b enc dec stored ces s WC Fe Hr Hi R Hb Hg) as (d & D & E).
  destruct (C80_driver_sees_a_disk _ _ _ _ _ _ _ _ _ Hm S Hc D) as (d' & D' & Eh).
  exists d'. split; [exact D'|]. intros x Hx. rewrite <- (E x Hx). apply Eh.
Qed.

(** *** A session on two queues: a write on the first and a read on the second, taken up
    in the other order; a discard and an oversized read, both refused; a power
    failure. *)
Definition fill (b : byte) : sector := repeat b (N.to_nat 512).
Definition ex_contents (x : nat) : sector := fill (N.of_nat x).
Definition ex_zero : list byte := repeat 0 (N.to_nat 1024).
Definition ex_seven : list byte := fill 7 ++ fill 0.
Definition ex_found : list (option sector) := [Some (fill 0); Some (fill 7)].
Definition ex_tr : list (titem sector) :=
  [TIssue 2 1 0 (RRead 0 2); TIssue 1 0 0 (RWrite 1 [fill 7]); TDone 1 0 0 true []; TDone 2 1 0 true ex_found; TCrash].
Definition ex_ktr : list (titem sector) :=
  [TIssue 1 0 0 (RWrite 1 [fill 7]); TIssue 2 1 0 (RRead 0 2); TDone 1 0 0 true []; TDone 2 1 0 true ex_found;
   TIssue 4 0 0 (RRead 0 4); TDone 4 0 0 false []; TCrash].

Definition next (u : ust) (e : uevent) : ust := match ustep 1024 2 u e with Ok (u', _) => u' | _ => u end.
Definition emitted (u : ust) (e : uevent) : list (titem sector) := match ustep 1024 2 u e with Ok (_, t) => t | _ => [] end.
Notation ex_session := (session 1024 2 6).

Lemma ex_step : forall u P tr ktr e P' w t,
  ex_session u P tr ktr -> is_ok (ustep 1024 2 u e) = true -> emitted u e = t ->
  driver_ok 1024 2 6 P ktr e -> UblkDiskSpec.watch u e (next u e) P P' w ->
  ex_session (next u e) P' (tr ++ t) (ktr ++ w).
Proof.
  intros * S Ok <- D W. eapply UblkDiskSpec.s_event; eauto. unfold next, emitted.
  destruct (ustep 1024 2 u e) as [[u' t]| |]; [reflexivity|discriminate|discriminate].
Qed.

Lemma sectors_by_computation : forall l v,
  (forallb (fun s => N.of_nat (length s) =? 512) v) && (if list_eq_dec N.eq_dec (concat v) l then true else false) = true ->
  is_sectors l v.
Proof.
  intros l v H. apply andb_true_iff in H as [H1 H2]. destruct (list_eq_dec N.eq_dec (concat v) l); [|discriminate].
  split; [assumption|]. apply Forall_forall. intros s Hs. rewrite forallb_forall in H1. apply N.eqb_eq, H1, Hs.
Qed.

Ltac ex_driver := split; [lia|]; split; [reflexivity|]; split;
  [intros p Hp; cbn in Hp; repeat (destruct Hp as [<-|Hp]; [cbn; intros; discriminate|]); destruct Hp|];
  split; [discriminate|]; split;
  [intros q' id' r' Hin; cbn in Hin; repeat (destruct Hin as [Hin|Hin]; [discriminate Hin|]); exact Hin|];
  split; intros; cbn in *; lia.

Example C80_nonvacuous : (exists u, ex_session u [] ex_tr ex_ktr) /\
  (exists d, disk_behaviour 6 ex_contents ex_tr d /\ cur (d_hist d 1) = Some (fill 7)) /\
  forall x, N.of_nat (length (ex_contents x)) = 512.
Proof.
  split; [|split].
  2:{ eexists. split.
      - exists [DIssue 2 1 0 (RRead 0 2); DIssue 1 0 0 (RWrite 1 [fill 7]); DSample 2 0; DApply 1 0; DDone 1 true;
                DSample 2 1; DDone 2 true; DCrash (fun _ => 0%nat)]. reflexivity.
      - reflexivity. }
  2:{ intros x. unfold ex_contents, fill. rewrite repeat_length. reflexivity. }
  set (p1 := mk_pending 0 0 1 1 1 1). set (p2 := mk_pending 1 0 2 0 0 2). set (p3 := mk_pending 0 1 3 3 0 0). set (p4 := mk_pending 0 0 4 0 0 4).
  pose proof (UblkDiskSpec.s_start 1024 2 6) as S. set (u0 := uinit 1024 2) in S.
  apply (ex_step u0 _ _ _ (UHandle 0 0 ex_seven 1 1 1 false 1) [p1] [TIssue 1 0 0 (RWrite 1 [fill 7])] []) in S;
    [|vm_compute; reflexivity|reflexivity|ex_driver|].
  2:{ apply (w_taken u0 _ _ 0%nat 0%nat ex_seven 1 1 1 false 1%nat); [reflexivity|vm_compute; reflexivity|]. apply (sent_io p1 ex_seven (RWrite 1 [fill 7])).
      apply (UblkDiskSpec.asks_write p1 ex_seven [fill 7]); [reflexivity|reflexivity|]. apply sectors_by_computation. vm_compute. reflexivity. }
  set (u1 := next u0 _) in S.
  apply (ex_step u1 _ _ _ (UHandle 1 0 ex_zero 0 0 2 true 2) [p2; p1] [TIssue 2 1 0 (RRead 0 2)] []) in S;
    [|vm_compute; reflexivity|reflexivity|ex_driver|].
  2:{ apply (w_taken u1 _ _ 1%nat 0%nat ex_zero 0 0 2 true 2%nat); [reflexivity|vm_compute; reflexivity|]. apply (sent_io p2 ex_zero (RRead 0 2)).
      apply (UblkDiskSpec.asks_read p2 ex_zero). reflexivity. }
  set (u2 := next u1 _) in S.
  apply (ex_step u2 _ _ _ (UEnqueue 1) [p2; p1] [] [TIssue 2 1 0 (RRead 0 2)]) in S;
    [|vm_compute; reflexivity|vm_compute; reflexivity|exact Logic.I|eapply w_quiet; [reflexivity|vm_compute; reflexivity]].
  set (u3 := next u2 _) in S.
  apply (ex_step u3 _ _ _ (UEnqueue 0) [p2; p1] [] [TIssue 1 0 0 (RWrite 1 [fill 7])]) in S;
    [|vm_compute; reflexivity|vm_compute; reflexivity|exact Logic.I|eapply w_quiet; [reflexivity|vm_compute; reflexivity]].
  set (u4 := next u3 _) in S.
  apply (ex_step u4 _ _ _ (UPoll 1 0 0 true []) [p2] [TDone 1 0 0 true []] [TDone 1 0 0 true []]) in S;
    [|vm_compute; reflexivity|vm_compute; reflexivity|exact Logic.I|].
  2:{ apply (w_answer u4 _ _ 0%nat p1 (UResult 512) ex_seven [p2] []); [reflexivity|vm_compute; reflexivity|reflexivity|].
      apply (got_io p1 _ _ true []); [vm_compute; discriminate|]. apply (UblkDiskSpec.finds_written p1). reflexivity. }
  set (u5 := next u4 _) in S.
  apply (ex_step u5 _ _ _ (UPoll 2 1 0 true ex_found) [] [TDone 2 1 0 true ex_found] [TDone 2 1 0 true ex_found]) in S;
    [|vm_compute; reflexivity|vm_compute; reflexivity|exact Logic.I|].
  2:{ apply (w_answer u5 _ _ 1%nat p2 (UResult 1024) (fill 0 ++ fill 7) [] []); [reflexivity|vm_compute; reflexivity|reflexivity|].
      apply (got_io p2 _ _ true ex_found); [vm_compute; discriminate|].
      apply (UblkDiskSpec.finds_data p2 _ [fill 0; fill 7]); [reflexivity|]. apply sectors_by_computation. vm_compute. reflexivity. }
  set (u6 := next u5 _) in S.
  apply (ex_step u6 _ _ _ (UHandle 0 1 ex_zero 3 0 0 true 3) [p3] [] []) in S; [|vm_compute; reflexivity|reflexivity|ex_driver|].
  2:{ apply (w_taken u6 _ _ 0%nat 1%nat ex_zero 3 0 0 true 3%nat); [reflexivity|vm_compute; reflexivity|]. apply (sent_other p3). reflexivity. }
  set (u7 := next u6 _) in S.
  apply (ex_step u7 _ _ _ (UEnqueue 0) [] [] []) in S; [|vm_compute; reflexivity|vm_compute; reflexivity|exact Logic.I|].
  2:{ apply (w_answer u7 _ _ 0%nat p3 UInval ex_zero [] []); [reflexivity|vm_compute; reflexivity|reflexivity|].
      apply got_other; reflexivity. }
  set (u8 := next u7 _) in S.
  apply (ex_step u8 _ _ _ (UHandle 0 0 ex_zero 0 0 4 true 4) [] ([TIssue 4 0 0 (RRead 0 4)] ++ [TDone 4 0 0 false []]) []) in S;
    [|vm_compute; reflexivity|reflexivity|ex_driver|].
  2:{ eapply (w_refused u8 _ _ 0%nat 0%nat ex_zero 0 0 4 true 4%nat); [reflexivity|vm_compute; reflexivity| |].
      - apply (sent_io p4 ex_zero (RRead 0 4)). apply (UblkDiskSpec.asks_read p4 ex_zero). reflexivity.
      - apply (got_io p4 _ _ false []); [vm_compute; discriminate|]. apply (UblkDiskSpec.finds_failed p4). }
  set (u9 := next u8 _) in S.
  apply (ex_step u9 _ _ _ UCrash [] [TCrash] [TCrash]) in S; [|reflexivity|reflexivity|exact Logic.I|now apply UblkDiskSpec.w_crash].
  eexists. exact S.
Qed.

Print Assumptions C80_driver_sees_a_disk.
Print Assumptions C80_driver_history.
Print Assumptions C80_goes_on.
Print Assumptions C80_loop_is_these_steps.
Print Assumptions C80_keeps_the_contract.
Print Assumptions C80_driver_of_the_whole_stack.
