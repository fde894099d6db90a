(** C83: a request fails only if the kernel fails it: there is a slot in the ring for
    every request of a queue.

    A channel of the io_uring device refuses a request, and reports it as failed, when
    the submission queue is full (bdev_uring.rs:82-87, 98-103, 115-120).  The data and
    metadata devices are opened with [queue_size] entries (backends/common/mod.rs:486-519),
    the image with 64 (common/mod.rs:466-484); virtqueues and ublk queues have
    [queue_size] entries as well.  [at_most k q tr] (RingSpec.v): at no time are more
    than [k] requests of channel [q] under way. *)
From Coq Require Import List Arith NArith Bool Lia.
Import ListNotations.
From Verif Require Import Base BaseFacts DiskSpec TraceSpec TraceFacts LazyState MetadataModel LazyModel LazySpec
  LayerSpec LayerModel SyncModel UringDiskModel UringDiskSpec UringDiskProofs UringDiskProps CryptOpenModel CryptOpenSpec CryptOpenCheck CryptOpenProps
  RingSpec RingProofs RingStack.
From Verif Require LayerProps GuestModel GuestSpec GuestProofs GuestProps UblkDiskModel UblkDiskSpec UblkDiskProofs UblkDiskProps.

(** If no more requests are under way on a channel than its ring has entries, only the
    kernel fails requests. *)
Theorem C83_no_request_is_refused :
  forall (V : Type) us per readonly osync entries len (contents : nat -> V) es s tr q,
  frun us per readonly osync entries (new_fdev len contents) es = Some (s, tr) ->
  at_most entries q tr ->
  forall n id data, In (TDone n q id false data) tr -> kernel_failed n es.
Proof.
  intros V us per readonly osync entries len contents es s tr q R M n id data Hin.
  apply (ring_run us per readonly osync entries q es (new_fdev len contents) s [] [] tr (good_init len contents)) with (id := id) (data := data); auto.
  - intros m o X. discriminate X.
  - intros m o X. discriminate X.
Qed.

(** If no more requests are added between two submissions than the ring has entries, and
    the kernel takes what is submitted, the same holds, however many are under way. *)
Theorem C83_nor_if_submitted_in_time :
  forall (V : Type) us per readonly osync entries len (contents : nat -> V) es s tr q,
  frun us per readonly osync entries (new_fdev len contents) es = Some (s, tr) ->
  bursts entries q es -> all_taken entries q es ->
  forall n id data, In (TDone n q id false data) tr -> kernel_failed n es.
Proof.
  intros V us per readonly osync entries len contents es s tr q R B T n id data Hin.
  apply (burst_run us per readonly osync entries q es (new_fdev len contents) s [] tr (good_init len contents)) with (id := id) (data := data); auto.
  - intros m o X. discriminate X.
  - cbn. lia.
Qed.

(** *** The backends *)

(** A vhost-user backend whose guest keeps to the protocol has at most [qsize] requests of
    a queue under way at its device, whatever the device is. *)
Theorem C83_vhost_requests_under_way : forall valid qsize did nslots bufsize size m0 gs P tr gtr contents d,
  GuestSpec.session valid qsize did nslots bufsize size m0 gs P tr gtr ->
  (forall x, x < size -> N.of_nat (length (contents x)) = 512%N) ->
  disk_behaviour size contents tr d ->
  forall q, at_most (N.to_nat qsize) q tr.
Proof. intros until d. intros S Hc D. eapply vhost_bound; eauto. Qed.

(** And what fails for the guest failed at the device. *)
Theorem C83_vhost_passes_failures_on : forall valid qsize did nslots bufsize size m0 gs P tr gtr contents d,
  GuestSpec.session valid qsize did nslots bufsize size m0 gs P tr gtr ->
  (forall x, x < size -> N.of_nat (length (contents x)) = 512%N) ->
  disk_behaviour size contents tr d ->
  forall n q h data, In (TDone n q h false data) gtr -> exists id, In (TDone n q id false data) tr.
Proof. intros until d. intros S Hc D n q h data. eapply vhost_failed; eauto. Qed.

(** A ublk backend has at most one request per tag under way. *)
Theorem C83_ublk_requests_under_way : forall max depth size us P tr ktr contents d,
  (max < 2 ^ 31)%N ->
  UblkDiskSpec.session max depth size us P tr ktr ->
  (forall x, x < size -> N.of_nat (length (contents x)) = 512%N) ->
  disk_behaviour size contents tr d ->
  forall q, at_most depth q tr.
Proof. intros until d. intros Hm S Hc D. eapply ublk_bound; eauto. Qed.

(** *** On a file *)

(** An io_uring device with [entries] slots per channel, opened on a file of [nsec] sectors
    holding [stored], ran through [fes] (calls and what the kernel did) to state [f], with
    the history [b] towards its callers, who kept the contract; no transfer was short. *)
Definition on_a_ring {V} (entries : N) (nsec : nat) (stored : nat -> V) (fes : list (fevent V)) (f : fdev V) (b : list (titem V)) : Prop :=
  exists len readonly osync,
    (len < 2 ^ 63)%N /\ open_uring entries len = Ok (N.of_nat nsec) /\
    calls_ok 512 1 readonly osync (N.to_nat entries) nsec (new_fdev nsec stored) fes /\ no_short_transfers fes /\
    frun 512 1 readonly osync (N.to_nat entries) (new_fdev nsec stored) fes = Some (f, b).

Lemma ring_file : forall V entries nsec (stored : nat -> V) fes f b, on_a_ring entries nsec stored fes f b -> on_a_file nsec stored f b.
Proof. intros V entries nsec stored fes f b (len & ro & os & H). exists entries, len, ro, os, fes. exact H. Qed.

Lemma ring_kernel : forall V entries k nsec (stored : nat -> V) fes f b q, on_a_ring entries nsec stored fes f b ->
  at_most k q b -> k <= N.to_nat entries ->
  forall n id data, In (TDone n q id false data) b -> kernel_failed n fes.
Proof.
  intros V entries k nsec stored fes f b q (len & ro & os & _ & _ & _ & _ & R) M L n id data Hin.
  eapply C83_no_request_is_refused; eauto. intros t1 t2 E. etransitivity; [apply (M t1 t2 E)|exact L].
Qed.

(** A guest on a raw file: a request comes back with an error only if the kernel reported
    an error for that request. *)
Theorem C83_guest_of_a_raw_file : forall valid qsize entries did nslots bufsize nsec m0 gs P tr gtr stored fes f,
  GuestSpec.session valid qsize did nslots bufsize nsec m0 gs P tr gtr ->
  on_a_ring entries nsec stored fes f tr ->
  (qsize <= entries)%N ->
  (forall x, x < nsec -> N.of_nat (length (stored x)) = 512%N) ->
  forall n q h data, In (TDone n q h false data) gtr -> kernel_failed n fes.
Proof.
  intros valid qsize entries did nslots bufsize nsec m0 gs P tr gtr stored fes f S Hf Hq Hc n q h data Hin.
  destruct (file_disk _ _ _ _ _ (ring_file _ _ _ _ _ _ _ Hf)) as (d & D & _).
  destruct (C83_vhost_passes_failures_on _ _ _ _ _ _ _ _ _ _ _ _ _ S Hc D _ _ _ _ Hin) as (id & X).
  eapply (ring_kernel _ entries (N.to_nat qsize)); eauto; [|lia].
  exact (C83_vhost_requests_under_way _ _ _ _ _ _ _ _ _ _ _ _ _ S Hc D q).
Qed.

(** The same on an encrypted file. *)
Theorem C83_guest_of_an_encrypted_file : forall valid qsize entries did nslots bufsize nsec m0 gs P g gtr
  (enc dec : nat -> GuestModel.sector -> GuestModel.sector) stored kes s b fes f,
  GuestSpec.session valid qsize did nslots bufsize nsec m0 gs P g gtr ->
  (forall x v, dec x (enc x v) = v) ->
  krun enc dec new_kdev kes = Some (s, g, b) -> all_buffers_ok enc dec new_kdev kes ->
  on_a_ring entries nsec stored fes f b ->
  (qsize <= entries)%N ->
  (forall x, x < nsec -> N.of_nat (length (dec x (stored x))) = 512%N) ->
  forall n q h data, In (TDone n q h false data) gtr -> kernel_failed n fes.
Proof.
  intros valid qsize entries did nslots bufsize nsec m0 gs P g gtr enc dec stored kes s b fes f S Hi R Hb Hf Hq Hc n q h data Hin.
  pose proof (LayerProps.C79_backend_keeps_the_contract _ _ _ _ _ _ _ _ _ _ _ (fun x => dec x (stored x)) S Hc) as Hg.
  destruct (C82_encrypted_file _ enc dec nsec stored kes s g b f Hi R Hb Hg (ring_file _ _ _ _ _ _ _ Hf)) as (d & D & _).
  destruct (C83_vhost_passes_failures_on _ _ _ _ _ _ _ _ _ _ _ _ _ S Hc D _ _ _ _ Hin) as (id & X).
  pose proof (crypt_same enc dec _ _ _ _ _ R) as Sm.
  destruct (same_done _ _ _ _ _ _ _ Sm X) as (data' & X').
  eapply (ring_kernel _ entries (N.to_nat qsize)); eauto; [|lia].
  eapply same_at_most; [exact Sm|]. exact (C83_vhost_requests_under_way _ _ _ _ _ _ _ _ _ _ _ _ _ S Hc D q).
Qed.

(** With a lazy device in between, the channel of guest queue [q] is channel [S q] of the
    device below (LayerModel.v): no request on it is refused for want of a slot. *)
Theorem C83_guest_requests_on_the_data_file : forall valid qsize entries did nslots bufsize m0 gs P g gtr
  (c : cfg GuestModel.sector) h oes so b (enc dec : nat -> GuestModel.sector -> GuestModel.sector) stored kes s b' fes f,
  GuestSpec.session valid qsize did nslots bufsize (target c) m0 gs P g gtr ->
  well_configured c h -> LayerProps.requests_fit c oes ->
  orun c (oinit c h) oes = Some (so, g, b) ->
  (forall x v, dec x (enc x v) = v) ->
  krun enc dec new_kdev kes = Some (s, b, b') -> all_buffers_ok enc dec new_kdev kes ->
  on_a_ring entries (target c) stored fes f b' ->
  (qsize <= entries)%N ->
  (forall x, x < target c ->
     N.of_nat (length (initial_contents c (fun x => dec x (stored x)) h x)) = 512%N) ->
  forall n q id data, In (TDone n (S q) id false data) b' -> kernel_failed n fes.
Proof.
  intros valid qsize entries did nslots bufsize m0 gs P g gtr c h oes so b enc dec stored kes s b' fes f S WC Fe Hr Hi R Hb Hf Hq Hc n q id data Hin.
  pose proof (LayerProps.C79_backend_keeps_the_contract _ _ _ _ _ _ _ _ _ _ _ _ S Hc) as Hg.
  pose proof (LayerProps.C79_lazy_keeps_the_contract _ c _ h oes so g b WC Fe Hr Hg) as Hbase.
  destruct (C82_encrypted_file _ enc dec (target c) stored kes s b b' f Hi R Hb Hbase (ring_file _ _ _ _ _ _ _ Hf)) as (d & D & _).
  destruct (LayerProps.C79_lazy_over_any_disk _ c _ h oes so g b d WC Fe Hr D) as (d' & D' & _).
  eapply (ring_kernel _ entries (N.to_nat qsize)); eauto; [|lia].
  eapply same_at_most; [exact (crypt_same enc dec _ _ _ _ _ R)|].
  eapply (lazy_bound c _ h WC); eauto; [apply LayerProps.fits, Fe|].
  exact (C83_vhost_requests_under_way _ _ _ _ _ _ _ _ _ _ _ _ _ S Hc D' q).
Qed.

(** The same for the kernel driver of a ublk backend. *)
Theorem C83_driver_requests_on_the_data_file : forall max depth entries us P g ktr
  (c : cfg GuestModel.sector) h oes so b (enc dec : nat -> GuestModel.sector -> GuestModel.sector) stored kes s b' fes f,
  (max < 2 ^ 31)%N ->
  UblkDiskSpec.session max depth (target c) us P g ktr ->
  well_configured c h -> LayerProps.requests_fit c oes ->
  orun c (oinit c h) oes = Some (so, g, b) ->
  (forall x v, dec x (enc x v) = v) ->
  krun enc dec new_kdev kes = Some (s, b, b') -> all_buffers_ok enc dec new_kdev kes ->
  on_a_ring entries (target c) stored fes f b' ->
  depth <= N.to_nat entries ->
  (forall x, x < target c ->
     N.of_nat (length (initial_contents c (fun x => dec x (stored x)) h x)) = 512%N) ->
  forall n q id data, In (TDone n (S q) id false data) b' -> kernel_failed n fes.
Proof.
  intros max depth entries us P g ktr c h oes so b enc dec stored kes s b' fes f Hm S WC Fe Hr Hi R Hb Hf Hq Hc n q id data Hin.
  pose proof (UblkDiskProps.C80_keeps_the_contract _ _ _ _ _ _ _ _ Hm S Hc) as Hg.
  pose proof (LayerProps.C79_lazy_keeps_the_contract _ c _ h oes so g b WC Fe Hr Hg) as Hbase.
  destruct (C82_encrypted_file _ enc dec (target c) stored kes s b b' f Hi R Hb Hbase (ring_file _ _ _ _ _ _ _ Hf)) as (d & D & _).
  destruct (LayerProps.C79_lazy_over_any_disk _ c _ h oes so g b d WC Fe Hr D) as (d' & D' & _).
  eapply (ring_kernel _ entries depth); eauto.
  eapply same_at_most; [exact (crypt_same enc dec _ _ _ _ _ R)|].
  eapply (lazy_bound c _ h WC); eauto; [apply LayerProps.fits, Fe|].
  exact (C83_ublk_requests_under_way _ _ _ _ _ _ _ _ _ Hm S Hc D' q).
Qed.

(** *** The fetcher and the flusher *)

(** A caller that submits every request at once, as the stripe fetcher
    (stripe_fetcher.rs:240-270) and the raw image source (block_device_source.rs) do, is
    never refused, however small the ring. *)
Definition at_once {V} (entries q : nat) (es : list (fevent V)) : Prop :=
  forall e1 e e2, es = e1 ++ e :: e2 -> count q 0 e = 1 -> exists k e3, e2 = FSubmit q k :: e3.

Theorem C83_submitted_at_once :
  forall (V : Type) us per readonly osync entries len (contents : nat -> V) es s tr q,
  frun us per readonly osync entries (new_fdev len contents) es = Some (s, tr) ->
  0 < entries -> at_once entries q es -> all_taken entries q es ->
  forall n id data, In (TDone n q id false data) tr -> kernel_failed n es.
Proof.
  intros V us per readonly osync entries len contents es s tr q R Hpos A T.
  apply (C83_nor_if_submitted_in_time V us per readonly osync entries len contents es s tr q R); auto.
  enough (X : forall e1 e2, es = e1 ++ e2 -> added q e1 = 0 \/ (added q e1 = 1 /\ forall e e3, e2 = e :: e3 -> exists k, e = FSubmit q k)).
  { intros e1 e2 E. destruct (X e1 e2 E) as [->|[-> _]]; lia. }
  intros e1. induction e1 as [|e e1 IH] using rev_ind; intros e2 E; [now left|].
  rewrite <- app_assoc in E. cbn [app] in E. rewrite added_snoc.
  destruct (IH _ E) as [Z|[Z Y]]; rewrite Z.
  - assert (Ce : count q 0 e = 0 \/ count q 0 e = 1).
    { destruct e; cbn [count]; try destruct (_ =? q); auto. }
    destruct Ce as [Ce|Ce]; rewrite Ce; auto. right. split; auto. intros e' e3 ->.
    destruct (A _ _ _ E Ce) as (k & e4 & X). injection X as -> _. eauto.
  - destruct (Y e e2 eq_refl) as (k & ->). cbn [count]. rewrite Nat.eqb_refl. now left.
Qed.

(** The metadata flusher adds at most sixteen writes and submits them, then at most sixteen
    flushes, for writes that completed, and submits those (metadata_flusher.rs:120-250,
    C13_at_most_16_metadata_writes); any number of flushes can be under way.  With
    sixteen entries or more it is never refused. *)
Theorem C83_metadata_writes :
  forall (V : Type) us per readonly osync entries len (contents : nat -> V) es s tr q,
  frun us per readonly osync entries (new_fdev len contents) es = Some (s, tr) ->
  16 <= entries -> bursts 16 q es -> all_taken entries q es ->
  forall n id data, In (TDone n q id false data) tr -> kernel_failed n es.
Proof.
  intros V us per readonly osync entries len contents es s tr q R L B T.
  apply (C83_nor_if_submitted_in_time V us per readonly osync entries len contents es s tr q R); auto.
  intros e1 e2 E. etransitivity; [apply (B e1 e2 E)|exact L].
Qed.

(** *** Too small a ring *)
Definition no_kernel_failure {V} (es : list (fevent V)) : Prop := forall n, ~ kernel_failed n es.

(** A configuration may set [queue_size] to 8 (any power of two is accepted, C64): a round
    of the flusher with nine different metadata sectors then fails an update although the
    disk is in order.  (What becomes of the stripe: C18_refuted_waits_forever.) *)
Definition ex_round (k : nat) : list (fevent nat) :=
  map (fun i => FWrite i 0 i i 1 (i mod 16)) (seq 1 k) ++ [FSubmit 0 k] ++
  flat_map (fun i => [FMove i 0; FComplete i Full]) (seq 1 (k - 1)) ++ [FPoll 0].

Lemma bursts_check : forall k q (es : list (fevent nat)),
  forallb (fun i => added q (firstn i es) <=? k) (seq 0 (S (length es))) = true -> bursts k q es.
Proof.
  intros k q es H e1 e2 E. rewrite forallb_forall in H. specialize (H (length e1)). apply Nat.leb_le.
  rewrite E in H. rewrite firstn_app, Nat.sub_diag, firstn_all, firstn_O, app_nil_r in H. apply H.
  apply in_seq. rewrite app_length. lia.
Qed.

Lemma at_most_check : forall k q (tr : list (titem nat)),
  forallb (fun i => length (under_way q (firstn i tr)) <=? k) (seq 0 (S (length tr))) = true -> at_most k q tr.
Proof.
  intros k q tr H t1 t2 X. rewrite forallb_forall in H. specialize (H (length t1)). apply Nat.leb_le.
  rewrite X in H. rewrite firstn_app, Nat.sub_diag, firstn_all, firstn_O, app_nil_r in H. apply H.
  apply in_seq. rewrite app_length. lia.
Qed.

Theorem C83_refuted_small_metadata_ring : exists (es : list (fevent nat)) s tr n id,
  frun 512 1 false false 8 (new_fdev 16 (fun x => x)) es = Some (s, tr) /\
  bursts 16 0 es /\ all_taken 8 0 es /\ no_kernel_failure es /\ In (TDone n 0 id false []) tr.
Proof.
  assert (E : option_map (fun x => existsb (fun i => match i with TDone 9 0 9 false [] => true | _ => false end) (snd x))
     (frun 512 1 false false 8 (new_fdev 16 (fun x => x)) (FFill 0 [5] :: map (fun i => FFill i [5]) (seq 1 15) ++ ex_round 9)) = Some true) by (vm_compute; reflexivity).
  destruct (frun 512 1 false false 8 (new_fdev 16 (fun x => x)) (FFill 0 [5] :: map (fun i => FFill i [5]) (seq 1 15) ++ ex_round 9)) as [[s tr]|] eqn:R; [|discriminate E].
  do 3 eexists. exists 9, 9. split; [exact R|]. split; [apply bursts_check; vm_compute; reflexivity|]. split.
  { intros k H. cbn in H. repeat (destruct H as [H|H]; [try discriminate H; injection H as <-; lia|]). destruct H. }
  split.
  { intros n H. unfold kernel_failed in H. cbn in H. repeat (destruct H as [H|H]; [discriminate H|]). destruct H. }
  cbn in E. injection E as E. apply existsb_exists in E as (i & Hi & X). clear - Hi X.
  destruct i as [|n q id ok data|]; try discriminate X.
  do 10 (destruct n as [|n]; try discriminate X). destruct q as [|q]; try discriminate X.
  do 10 (destruct id as [|id]; try discriminate X). destruct ok; try discriminate X. destruct data; [exact Hi|discriminate X].
Qed.

(** The image has 64 entries whatever [queue_size] is: with virtqueues of 128, sixty-five
    reads that arrive together (process_queue submits once, after all chains) are too many,
    and one of them comes back as failed. *)
Theorem C83_refuted_image_ring : exists (es : list (fevent nat)) s tr n id,
  frun 512 1 true false 64 (new_fdev 4 (fun x => x)) es = Some (s, tr) /\
  at_most 65 0 tr /\ no_kernel_failure es /\ In (TDone n 0 id false []) tr.
Proof.
  set (es := map (fun i => FRead i 0 i 0 1 i) (seq 1 65) ++ [FSubmit 0 65; FPoll 0] : list (fevent nat)).
  assert (E : option_map (fun x => forallb (fun i => length (under_way 0 (firstn i (snd x))) <=? 65) (seq 0 (S (length (snd x)))) &&
      existsb (fun i => match i with TDone n 0 id false [] => (n =? 65) && (id =? 65) | _ => false end) (snd x))
     (frun 512 1 true false 64 (new_fdev 4 (fun x => x)) es) = Some true) by (vm_compute; reflexivity).
  destruct (frun 512 1 true false 64 (new_fdev 4 (fun x => x)) es) as [[s tr]|] eqn:R; [|discriminate E].
  exists es, s, tr, 65, 65. split; [exact R|]. cbn [option_map snd] in E. injection E as E. apply andb_prop in E as [E1 E2]. split; [|split].
  - apply at_most_check. exact E1.
  - intros n H. unfold kernel_failed, es in H. apply in_app_iff in H as [H|[H|[H|[]]]]; try discriminate H.
    apply in_map_iff in H as (i & X & _). discriminate X.
  - apply existsb_exists in E2 as (i & Hi & X). clear - Hi X.
    destruct i as [|n [|q] id [|] [|? ?]|]; try discriminate X. apply andb_prop in X as [X1 X2]. apply Nat.eqb_eq in X1, X2. subst n id. exact Hi.
Qed.

(** *** Cases *)

(** Two requests under way on a ring of two entries; the kernel fails one of them. *)
Example C83_nonvacuous : exists es s tr,
  frun 512 1 false false 2 (new_fdev 3 (fun x => x)) es = Some (s, tr) /\
  at_most 2 0 tr /\ bursts 2 0 es /\ all_taken 2 0 es /\
  tr = [TIssue 1 0 5 (RWrite 0 [7]); TIssue 2 0 6 RFlush; TDone 1 0 5 true []; TDone 2 0 6 false []; TIssue 3 0 5 (RRead 0 1); TDone 3 0 5 true [Some 7]].
Proof.
  set (es := [FFill 0 [7]; FWrite 1 0 5 0 1 0; FFlush 2 0 6; FSubmit 0 2; FMove 1 0; FComplete 1 Full; FComplete 2 Failed; FPoll 0;
              FRead 3 0 5 0 1 0; FSubmit 0 2; FMove 3 0; FComplete 3 Full; FPoll 0] : list (fevent nat)).
  assert (E : option_map snd (frun 512 1 false false 2 (new_fdev 3 (fun x => x)) es) =
    Some [TIssue 1 0 5 (RWrite 0 [7]); TIssue 2 0 6 RFlush; TDone 1 0 5 true []; TDone 2 0 6 false []; TIssue 3 0 5 (RRead 0 1); TDone 3 0 5 true [Some 7]])
    by (vm_compute; reflexivity).
  destruct (frun 512 1 false false 2 (new_fdev 3 (fun x => x)) es) as [[s tr]|] eqn:R; [|discriminate E]. cbn [option_map snd] in E. injection E as E.
  exists es, s, tr. split; [exact R|]. split; [|split; [|split; [|exact E]]].
  - rewrite E. apply at_most_check. vm_compute. reflexivity.
  - apply bursts_check. vm_compute. reflexivity.
  - intros k H. cbn in H. repeat (destruct H as [H|H]; [try discriminate H; injection H as <-; lia|]). destruct H.
Qed.

(** The stack of C82, for a queue of eight entries, is on a ring of eight entries. *)
Example C83_stack_nonvacuous : exists f, on_a_ring 8 (target GuestProps.ex_cfg) LayerProps.ex_stored ex_fes f ex_below.
Proof.
  assert (E : option_map (fun x => snd x)
      (frun 512 1 false false 8 (new_fdev (target GuestProps.ex_cfg) LayerProps.ex_stored) ex_fes) = Some ex_below)
    by (vm_compute; reflexivity).
  destruct (frun 512 1 false false 8 (new_fdev (target GuestProps.ex_cfg) LayerProps.ex_stored) ex_fes) as [[f b]|] eqn:R; cbn [option_map fst snd] in E; [|discriminate E].
  assert (Eb : b = ex_below) by exact (f_equal (fun o => match o with Some x => x | None => [] end) E). subst b.
  exists f. exists 3072%N, false, false. split; [reflexivity|]. split; [reflexivity|]. split.
  { apply (calls_sound 14); [intros n _; reflexivity|vm_compute; reflexivity]. }
  split; [|exact R]. intros n k H. cbn [ex_fes In] in H. repeat (destruct H as [H|H]; [discriminate H|]). exact H.
Qed.

(** A guest on a raw file flushes; the kernel fails the flush; the guest is told. *)
Definition ex_failed_tr : list (titem GuestModel.sector) := [TIssue 9 0 0 RFlush; TDone 9 0 0 false []].
Definition ex_failed_gtr : list (titem GuestModel.sector) := [TIssue 9 0 6 RFlush; TDone 9 0 6 false []].

Example C83_guest_nonvacuous :
  (exists gs, GuestSpec.session GuestProps.ex_valid 8 [65%N] 2 512 6 GuestProps.ex_mem gs [] ex_failed_tr ex_failed_gtr) /\
  (exists f, on_a_ring 8 6 (fun _ => GuestProps.fill 1) [FFlush 9 0 0; FSubmit 0 1; FComplete 9 Failed; FPoll 0] f ex_failed_tr).
Proof.
  split.
  - pose proof (GuestSpec.s_start GuestProps.ex_valid 8 [65%N] 2 512 6 GuestProps.ex_mem) as S. set (g0 := GuestModel.ginit 2 512 GuestProps.ex_mem) in S.
    apply (GuestProps.ex_step g0 _ _ _ (GuestModel.GPop 0 GuestProps.ex_flush 9) [GuestSpec.mk_pending 0 6 9 GuestProps.rq_f] [TIssue 9 0 6 RFlush]) in S;
      [|vm_compute; reflexivity|GuestProps.ex_driver_tac GuestProps.rq_f|].
    2:{ GuestProps.ex_pop_tac GuestProps.rq_f (@RFlush GuestModel.sector). apply GuestSpec.asks_flush. reflexivity. }
    set (g1 := GuestProps.next g0 _) in S.
    apply (GuestProps.ex_step g1 _ _ _ (GuestModel.GDone 9 0 0 false []) [] [TDone 9 0 6 false []]) in S; [|vm_compute; reflexivity|exact Logic.I|].
    2:{ GuestProps.ex_done_tac 6%N 9 GuestProps.rq_f false (@nil (option GuestModel.sector)). apply GuestSpec.finds_failed. vm_compute. discriminate. }
    eexists. refine (eq_ind _ (fun t => GuestProps.ex_session _ [] t ex_failed_gtr) S _ _). vm_compute. reflexivity.
  - assert (E : option_map (fun x => snd x) (frun 512 1 false false 8 (new_fdev 6 (fun _ => GuestProps.fill 1)) [FFlush 9 0 0; FSubmit 0 1; FComplete 9 Failed; FPoll 0]) = Some ex_failed_tr)
      by (vm_compute; reflexivity).
    destruct (frun 512 1 false false 8 (new_fdev 6 (fun _ => GuestProps.fill 1)) [FFlush 9 0 0; FSubmit 0 1; FComplete 9 Failed; FPoll 0]) as [[f b]|] eqn:R; [|discriminate E].
    cbn [option_map snd] in E. injection E as ->. exists f. exists 3072%N, false, false. split; [reflexivity|]. split; [reflexivity|]. split.
    { apply (calls_sound 14); [intros n _; reflexivity|vm_compute; reflexivity]. }
    split; [|exact R]. intros n k H. cbn [In] in H. repeat (destruct H as [H|H]; [discriminate H|]). exact H.
Qed.

Print Assumptions C83_no_request_is_refused.
Print Assumptions C83_nor_if_submitted_in_time.
Print Assumptions C83_vhost_requests_under_way.
Print Assumptions C83_vhost_passes_failures_on.
Print Assumptions C83_ublk_requests_under_way.
Print Assumptions C83_guest_of_a_raw_file.
Print Assumptions C83_guest_of_an_encrypted_file.
Print Assumptions C83_guest_requests_on_the_data_file.
Print Assumptions C83_driver_requests_on_the_data_file.
Print Assumptions C83_submitted_at_once.
Print Assumptions C83_metadata_writes.
Print Assumptions C83_refuted_small_metadata_ring.
Print Assumptions C83_refuted_image_ring.
