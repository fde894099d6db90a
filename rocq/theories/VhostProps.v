(** C35-C38 and C50: the vhost-user-blk request path. *)
From Coq Require Import List NArith Arith Bool Lia ZifyBool ZifyNat ZifyN Permutation.
From Verif Require Import Base BaseFacts VhostModel VhostSpec VhostProofs.
From Verif Require LazyModel LazyState.
Import ListNotations.
Local Open Scope N_scope.

Lemma reachable_inv : forall valid q did s, reachable valid q did s -> vinv valid s.
Proof. intros * (m & n & b & es & Ha & Hr). eapply run_inv; eauto. apply vinit_inv. Qed.

(** ** C35 *)

(** A chain is accepted exactly when it is a block request, and the parsed request
    is that block request. *)
Theorem C35_accepted_iff : forall valid m c rq,
  parse valid m c = Ok rq <-> exists head datas st, block_request valid m c rq head datas st.
Proof. exact parse_ok. Qed.

Theorem C35_no_panic : forall valid m c, parse valid m c <> Panic.
Proof. exact parse_no_panic. Qed.

(** A rejected chain touches nothing: no memory, no slot, no I/O; it only goes back
    to the guest. *)
Theorem C35_rejected : forall valid q did c s,
  (forall rq head datas st, ~ block_request valid (v_mem s) c rq head datas st) ->
  exists s', process_chain valid q did c s = Ok s' /\
    v_mem s' = v_mem s /\ v_slots s' = v_slots s /\ v_ops s' = v_ops s /\
    (c_head c < q -> v_used s' = v_used s ++ [c_head c]).
Proof.
  intros * H. unfold process_chain.
  destruct (parse valid (v_mem s) c) as [rq|e|] eqn:Ep.
  - apply parse_ok in Ep as (h & ds & st & B). exfalso. eapply H; eauto.
  - exists (complete_bad_chain q (c_head c) s). split; [reflexivity|]. unfold complete_bad_chain.
    pose proof (add_used_rest q (c_head c) s) as R. cbv zeta in R.
    destruct R as (-> & -> & -> & _). repeat split. intros Hq. rewrite add_used_used.
    unfold in_queue. destruct (N.ltb_spec (c_head c) q); [reflexivity|lia].
  - exfalso. eapply parse_no_panic; eauto.
Qed.

(** *** Example memory: 4096 valid bytes, a read request for sector 3 at 0, a write
    request for sector 5 at 16, a device-id request at 32, a flush at 48, data
    bytes 7 elsewhere. *)
Definition ex_valid (a : N) : bool := a <? 4096.
Definition ex_mem (a : N) : byte :=
  if a =? 8 then 3 else if a =? 16 then 1 else if a =? 24 then 5
  else if a =? 32 then 8 else if a =? 48 then 4 else if a <? 64 then 0 else 7.
Definition ex_read : chain := mk_chain 2
  [mk_desc 0 16 false true; mk_desc 1024 100 true true; mk_desc 2048 412 true true; mk_desc 64 1 true false].
Definition ex_write : chain := mk_chain 5
  [mk_desc 16 16 false true; mk_desc 1500 12 false true; mk_desc 3000 500 false true; mk_desc 65 1 true false].
Definition ex_flush : chain := mk_chain 6 [mk_desc 48 16 false true; mk_desc 66 1 true false].

Example C35_nonvacuous : parse ex_valid ex_mem ex_read =
  Ok (mk_request TIn [(1024, 100); (2048, 412)] 3 64).
Proof. vm_compute. reflexivity. Qed.
Example C35_nonvacuous_rejected : is_err (parse ex_valid ex_mem
  (mk_chain 2 [mk_desc 0 16 false true; mk_desc 1024 100 false true; mk_desc 64 1 true false])) = true.
Proof. vm_compute. reflexivity. Qed.

(** Not checked by the code (counterexamples to a stronger reading): the length of
    the header descriptor, so that a header is read past the end of the descriptor
    holding it ... *)
Theorem C35_refuted_header_length : exists m c rq, parse ex_valid m c = Ok rq /\
  exists head rest, c_descs c = head :: rest /\ d_len head < 16.
Proof.
  exists ex_mem, (mk_chain 2 [mk_desc 0 0 false true; mk_desc 64 1 true false]).
  eexists. split; [vm_compute; reflexivity|]. eexists. eexists. split; [reflexivity|]. cbn. lia.
Qed.

(** ... and the direction of the data descriptor of a device-id request: the device
    stores into a buffer the driver declared read-only. *)
Theorem C35_refuted_id_into_read_only : exists c s', c_descs c =
    [mk_desc 32 16 false true; mk_desc 1024 20 false true; mk_desc 64 1 true false] /\
  process_chain ex_valid 8 [65; 66] c (vinit ex_mem 1 512) = Ok s' /\
  v_mem s' 1024 = 65 /\ ex_mem 1024 = 7.
Proof.
  eexists (mk_chain 1 _), _. cbn [c_descs]. split; [reflexivity|].
  split; [unfold vinit; reflexivity|]. split; vm_compute; reflexivity.
Qed.

(** ** C36 *)

(** As long as requests carry less than 2^32 bytes and device-id requests have a
    data descriptor, no mix of requests, completions and guest stores makes the
    thread panic. *)
Theorem C36_no_panic_within_limits_partial : forall valid q did m n b es,
  along valid q did channel_contract (vinit m n b) es ->
  along valid q did (within_limits valid) (vinit m n b) es ->
  exists s, run valid q did (vinit m n b) es = Ok s.
Proof.
  intros * Ha Hw. apply run_no_panic; auto; [apply vinit_inv|].
  intros i sl H Hu. cbn [vinit v_slots] in H. apply nth_error_In, repeat_spec in H. subst sl. discriminate.
Qed.

(** A device-id request without a data descriptor panics ... *)
Theorem C36_refuted_get_id : exists c, c_descs c = [mk_desc 32 16 false true; mk_desc 64 1 true false] /\
  process_chain ex_valid 8 [65] c (vinit ex_mem 1 512) = Panic.
Proof. exists (mk_chain 1 [mk_desc 32 16 false true; mk_desc 64 1 true false]). split; vm_compute; reflexivity. Qed.

(** ... and so do data lengths that add up to 2^32: on a write at once, on a read
    when it completes. *)
Theorem C36_refuted_write_length : exists c, process_chain ex_valid 8 [65] c (vinit ex_mem 1 512) = Panic /\
  c_descs c = [mk_desc 16 16 false true; mk_desc 1024 (2 ^ 31) false true; mk_desc 1024 (2 ^ 31) false true;
               mk_desc 64 1 true false].
Proof.
  exists (mk_chain 1 [mk_desc 16 16 false true; mk_desc 1024 (2 ^ 31) false true;
    mk_desc 1024 (2 ^ 31) false true; mk_desc 64 1 true false]).
  split; [vm_compute; reflexivity|reflexivity].
Qed.

Theorem C36_refuted_read_length : exists c s, process_chain ex_valid 8 [65] c (vinit ex_mem 1 512) = Ok s /\
  v_ops s = [VRead 3 0 0] /\ channel_contract s (EDone 0 true []) /\
  step ex_valid 8 [65] s (EDone 0 true []) = Panic.
Proof.
  exists (mk_chain 1 [mk_desc 0 16 false true; mk_desc 1024 (2 ^ 31) true true;
    mk_desc 1024 (2 ^ 31) true true; mk_desc 64 1 true false]).
  eexists. split; [unfold vinit; reflexivity|]. split; [vm_compute; reflexivity|]. split.
  - split; [vm_compute; auto|]. intros _ sl Hs _. vm_compute in Hs. injection Hs as <-. reflexivity.
  - vm_compute. reflexivity.
Qed.

(** On a lazy device any read starting behind its last stripe panics, whatever
    the state: the thread forwards the guest's sector unchecked (C37_forwarded). *)
Theorem C36_refuted_lazy_out_of_range : forall (V : Type) (c : LazyModel.cfg V) s ch id off len,
  LazyState.panic s = false -> (0 < LazyModel.ssc c)%nat -> (0 < len)%nat ->
  (LazyModel.nst c <= off / LazyModel.ssc c)%nat ->
  LazyState.panic (fst (LazyModel.step c s (LazyModel.EAdd ch id (DiskSpec.RRead off len)))) = true.
Proof.
  intros * Hp Hs Hl Hn. unfold LazyModel.step. rewrite Hp. cbn [fst].
  unfold LazyModel.add_req, LazyModel.add_read, LazyModel.stripes_of, LazyModel.stripe_first, LazyModel.stripe_last.
  destruct (Nat.eqb_spec (off + len) 0); [lia|].
  assert (off / LazyModel.ssc c <= (off + len - 1) / LazyModel.ssc c)%nat by (apply Nat.div_le_mono; lia).
  destruct (S ((off + len - 1) / LazyModel.ssc c) - off / LazyModel.ssc c)%nat as [|k] eqn:E; [lia|].
  cbn [seq LazyModel.fetch_status].
  destruct (Nat.ltb_spec (off / LazyModel.ssc c) (LazyModel.nst c)); [lia|]. reflexivity.
Qed.

(** A read without data descriptors, at sector 0, does the same on a lazy device
    whose stripes are all present. *)
Theorem C36_refuted_lazy_zero_length :
  parse ex_valid (fun _ => 0) (mk_chain 1 [mk_desc 0 16 false true; mk_desc 64 1 true false]) =
    Ok (mk_request TIn [] 0 64) /\
  (forall did, exists s, process_chain ex_valid 8 did
     (mk_chain 1 [mk_desc 0 16 false true; mk_desc 64 1 true false]) (vinit (fun _ => 0) 1 512) = Ok s /\
     v_ops s = [VRead 0 0 0]) /\
  let c := LazyModel.mk_cfg 2 3 508 6 6 false (fun x => x) 0%nat false false true in
  LazyState.panic (fst (LazyModel.step c (LazyModel.init c (fun x => x) (fun _ => 3))
    (LazyModel.EAdd 0 0 (DiskSpec.RRead 0 0)))) = true.
Proof.
  split; [vm_compute; reflexivity|]. split; [|vm_compute; reflexivity].
  intros did. eexists. split; [reflexivity|]. vm_compute. reflexivity.
Qed.

(** The slot table only grows, and one request makes it grow by any multiple of 512
    bytes below 2^32: memory is not bounded by the configured queue size and
    segment limits. *)
Theorem C36_refuted_memory : forall L, 512 < L -> L < 2 ^ 32 -> L mod 512 = 0 ->
  exists c s, process_chain ex_valid 8 [] c (vinit ex_mem 1 512) = Ok s /\
    exists sl, nth_error (v_slots s) 1 = Some sl /\ N.of_nat (length (sl_buf sl)) = L.
Proof.
  intros L H1 H2 H3.
  exists (mk_chain 1 [mk_desc 0 16 false true; mk_desc 1024 L true true; mk_desc 64 1 true false]).
  assert (Ep : parse ex_valid ex_mem (mk_chain 1 [mk_desc 0 16 false true; mk_desc 1024 L true true; mk_desc 64 1 true false])
     = Ok (mk_request TIn [(1024, L)] 3 64)) by (vm_compute; reflexivity).
  unfold process_chain. cbn [vinit v_mem]. rewrite Ep. cbn [rq_type c_head]. unfold process_read.
  cbn [rq_data request_len]. rewrite N.add_0_l. rewrite (N.mod_small L) by exact H2.
  change SECTOR with 512. rewrite H3. cbn [N.eqb negb].
  assert (F : find_slot 0 L (v_slots (vinit ex_mem 1 512)) = None).
  { unfold vinit. cbn [v_slots repeat find_slot new_slot sl_len].
    destruct (N.leb_spec L 512); [lia|]. reflexivity. }
  unfold get_request_slot. rewrite F.
  eexists. split; [reflexivity|]. eexists. split; [reflexivity|].
  cbn [fill_slot new_slot sl_buf]. rewrite repeat_length. lia.
Qed.

(** *** A run with three requests of which the write finishes first. *)
Definition ex_data : list byte := map N.of_nat (seq 1 512).
Definition ex_run : list vevent :=
  [EPop ex_read; EPop ex_write; EPop ex_flush; EGuestStore 3000 9; EDone 1 true []; EDone 0 true ex_data; EDone 2 false []].

Lemma ex_run_contract : along ex_valid 8 [65] channel_contract (vinit ex_mem 2 512) ex_run.
Proof.
  repeat (cbn [along ex_run]; split;
   [ try exact Logic.I; (split; [vm_compute; tauto|]; intros _ sl Hs Ht; vm_compute in Hs; injection Hs as <-;
                   first [discriminate Ht | vm_compute; reflexivity])
   | let s := fresh "s" in let H := fresh "H" in intros s H; vm_compute in H; injection H as <- ]).
  exact Logic.I.
Qed.

Example C36_nonvacuous : exists s, run ex_valid 8 [65] (vinit ex_mem 2 512) ex_run = Ok s.
Proof.
  apply C36_no_panic_within_limits_partial; [apply ex_run_contract|].
  repeat (cbn [along ex_run]; split;
   [ try exact Logic.I; (intros rq H; vm_compute in H; injection H as <-; vm_compute; split; [reflexivity|discriminate])
   | let s := fresh "s" in let H := fresh "H" in intros s H; vm_compute in H; injection H as <- ]).
  exact Logic.I.
Qed.

(** ** C37 *)

(** Chains taken from the available ring are, each exactly once, on the used ring
    or still being worked on.  (The queue refuses head indices it does not have.) *)
Theorem C37_exactly_once : forall valid q did m n b es s,
  along valid q did channel_contract (vinit m n b) es ->
  run valid q did (vinit m n b) es = Ok s ->
  Forall (fun h => h < q) (popped es) ->
  Permutation (popped es) (v_used s ++ filter (fun h => h <? q) (in_flight s)).
Proof.
  intros * Ha Hr Hq.
  pose proof (run_account valid q did es _ s [] (vinit_inv valid m n b) Ha Hr) as P.
  assert (E : inq q (popped es) = popped es).
  { unfold inq. clear - Hq. induction Hq; [reflexivity|]. cbn [filter].
    destruct (N.ltb_spec x q); [|lia]. f_equal. auto. }
  cbn [app] in P. rewrite E in P. apply P. cbn [inq filter v_used vinit app].
  rewrite in_flight_contrib. cbn [vinit v_slots].
  replace (flat_map contrib (repeat (new_slot b) n)) with (@nil N); [constructor|].
  clear. induction n; [reflexivity|exact IHn].
Qed.

(** Once the channel has reported everything, every chain has been returned. *)
Theorem C37_all_returned : forall valid q did m n b es s,
  along valid q did channel_contract (vinit m n b) es ->
  run valid q did (vinit m n b) es = Ok s ->
  Forall (fun h => h < q) (popped es) -> v_out s = [] ->
  Permutation (popped es) (v_used s).
Proof.
  intros * Ha Hr Hq Ho. pose proof (C37_exactly_once _ _ _ _ _ _ _ _ Ha Hr Hq) as P.
  pose proof (run_inv _ _ _ _ _ _ (vinit_inv valid m n b) Ha Hr) as Hi.
  replace (in_flight s) with (@nil N) in P; [cbn [filter] in P; rewrite app_nil_r in P; exact P|].
  rewrite in_flight_contrib. symmetry.
  assert (F : Forall (fun sl => sl_used sl = false) (v_slots s)).
  { apply Forall_forall. intros sl Hin. apply In_nth_error in Hin as (i & Hs).
    destruct (sl_used sl) eqn:Hu; [|reflexivity].
    assert (In i (v_out s)) by (apply (so_out _ _ _ Hi); eauto). rewrite Ho in H. destruct H. }
  clear - F. induction F; [reflexivity|]. cbn [flat_map]. unfold contrib at 1. rewrite H. exact IHF.
Qed.

(** Requests in flight use different identifiers (slots and buffers): a new one
    never gets an identifier in use. *)
Theorem C37_own_slot : forall valid q did s c s' o,
  reachable valid q did s -> process_chain valid q did c s = Ok s' ->
  v_ops s' = v_ops s ++ [o] -> ~ In (vop_id o) (v_out s) /\ NoDup (v_out s').
Proof.
  intros * Hr Hp Ho. pose proof (reachable_inv _ _ _ _ Hr) as Hi.
  destruct (issued_by _ _ _ _ _ _ _ Hi Hp Ho) as (rq & _ & Hh & _).
  split; [apply Hh|]. exact (so_nodup _ _ _ (ho_inv _ _ _ _ _ _ Hh)).
Qed.

(** What reaches the device is what the guest asked for: its sector, as many sectors
    as its data descriptors hold, and for a write their contents in order. *)
Theorem C37_forwarded : forall valid q did s c s' o,
  reachable valid q did s -> process_chain valid q did c s = Ok s' ->
  v_ops s' = v_ops s ++ [o] ->
  exists rq head datas st, block_request valid (v_mem s) c rq head datas st /\
  match o with
  | VRead sec cnt _ => rq_type rq = TIn /\ sec = rq_sector rq /\
      (total_len (rq_data rq) < 2 ^ 32 -> total_len (rq_data rq) = 512 * cnt)
  | VWrite sec cnt _ data => rq_type rq = TOut /\ sec = rq_sector rq /\
      segs_valid valid (rq_data rq) /\
      (total_len (rq_data rq) < 2 ^ 32 ->
        total_len (rq_data rq) = 512 * cnt /\ data = seg_contents (v_mem s) (rq_data rq))
  | VFlush _ => rq_type rq = TFlush
  end.
Proof.
  intros * Hr Hp Ho. pose proof (reachable_inv _ _ _ _ Hr) as Hi.
  destruct (issued_by _ _ _ _ _ _ _ Hi Hp Ho) as (rq & Ep & Hh & _ & Hm).
  apply parse_ok in Ep as (h & ds & st & B). exists rq, h, ds, st. split; [exact B|].
  destruct o.
  - destruct Hm as (T & S & L). repeat split; auto. intros Hs. rewrite request_len_total in L by lia.
    unfold SECTOR in L. lia.
  - destruct Hm as (T & S & L & V & D). repeat split; auto. rewrite request_len_total in L by lia.
    unfold SECTOR in L. lia.
  - exact Hm.
Qed.

(** From the available ring to the used ring: between handing request [c] over and
    its completion anything may happen ([es]); its completion puts exactly its head
    on the used ring, writes its status byte according to the result and, for a
    successful read, its data to its descriptors in order, and nothing else. *)
Theorem C37_completion : forall valid q did c s0 s1 o rq head datas st es s2 ok data s3,
  reachable valid q did s0 -> block_request valid (v_mem s0) c rq head datas st ->
  c_head c < q -> total_len (rq_data rq) < 2 ^ 32 ->
  process_chain valid q did c s0 = Ok s1 -> v_ops s1 = v_ops s0 ++ [o] ->
  along valid q did channel_contract s1 es -> run valid q did s1 es = Ok s2 ->
  (forall ok' d', ~ In (EDone (vop_id o) ok' d') es) ->
  channel_contract s2 (EDone (vop_id o) ok data) ->
  step valid q did s2 (EDone (vop_id o) ok data) = Ok s3 ->
  v_used s3 = v_used s2 ++ [c_head c] /\
  (ok = false -> v_mem s3 (rq_status rq) = 1) /\
  (ok = true -> rq_type rq <> TIn -> v_mem s3 (rq_status rq) = 0) /\
  (rq_type rq = TIn -> ok = true -> (v_mem s3 (rq_status rq) = 0 <-> segs_valid valid (rq_data rq))) /\
  (v_mem s3 (rq_status rq) = 0 \/ v_mem s3 (rq_status rq) = 1) /\
  (if is_in (rq_type rq) && ok
   then same_except (fun x => in_segs x (rq_data rq) \/ x = rq_status rq) (v_mem s2) (v_mem s3)
   else same_except (fun x => x = rq_status rq) (v_mem s2) (v_mem s3)) /\
  (rq_type rq = TIn -> ok = true -> segs_valid valid (rq_data rq) ->
   segs_disjoint (rq_data rq) -> ~ in_segs (rq_status rq) (rq_data rq) ->
   seg_contents (v_mem s3) (rq_data rq) = data).
Proof.
  intros * Hr B Hq Hlen Hp Ho Ha Hrun Hne Hc Hs. pose proof (reachable_inv _ _ _ _ Hr) as Hi.
  destruct (issued_by _ _ _ _ _ _ _ Hi Hp Ho) as (rq' & Ep & Hh & _ & Hm).
  assert (E : parse valid (v_mem s0) c = Ok rq) by (apply parse_ok; eauto).
  rewrite E in Ep. injection Ep as <-.
  destruct (request_end _ _ _ _ _ _ _ _ _ _ _ _ _ Hi Hp Hh Ha Hrun Hne Hc Hs)
    as (Hu & m1 & wok & Hw & Hmem & Hdl).
  assert (Hst : v_mem s3 (rq_status rq) = if ok && wok then S_OK else S_IOERR).
  { rewrite Hmem. unfold gm_upd. rewrite N.eqb_refl. reflexivity. }
  assert (Hother : forall x, x <> rq_status rq -> v_mem s3 x = m1 x).
  { intros x Hx. rewrite Hmem. unfold gm_upd. destruct (N.eqb_spec x (rq_status rq)); congruence. }
  split. { rewrite Hu. unfold in_queue. destruct (N.ltb_spec (c_head c) q); [reflexivity|lia]. }
  destruct (is_in (rq_type rq) && ok) eqn:Eio.
  - apply andb_true_iff in Eio as [E1 E2]. subst ok. apply is_in_true in E1.
    destruct Hw as (buf & Hbuf & Hw). pose proof (write_to_guest_status _ _ _ _ _ _ _ Hw) as Hwok.
    pose proof (write_to_guest_same _ _ _ _ _ _ _ Hw) as Hsame.
    split; [discriminate|]. split; [congruence|]. split.
    { intros _ _. rewrite Hst. cbn [andb]. rewrite <- Hwok. destruct wok; unfold S_OK, S_IOERR; split; congruence. }
    split. { rewrite Hst. destruct (true && wok); auto. }
    split.
    { intros x Hx. rewrite Hother by tauto. apply Hsame. tauto. }
    intros _ _ Hsv Hd Hnst. apply Hwok in Hsv as ->.
    rewrite (seg_contents_same (fun x => x = rq_status rq) _ m1).
    + rewrite (write_to_guest_ok _ _ _ _ _ _ Hw Hd). cbn [N.to_nat skipn].
      destruct (Hdl eq_refl E1) as [L|(i & ->)].
      * rewrite request_len_total in L by lia. transitivity (firstn (length data) buf); [f_equal; lia|exact Hbuf].
      * cbn in Hm. congruence.
    + exact Hother.
    + intros x Hx ->. auto.
  - destruct Hw as [-> ->]. rewrite andb_true_r in Hst.
    split. { intros ->. exact Hst. }
    split. { intros -> _. exact Hst. }
    split. { intros E1 E2. apply is_in_true in E1. rewrite E1, E2 in Eio. discriminate. }
    split. { rewrite Hst. destruct ok; auto. }
    split. { intros x Hx. apply Hother. exact Hx. }
    intros E1 E2. apply is_in_true in E1. rewrite E1, E2 in Eio. discriminate.
Qed.

(** Requests answered without I/O get the status the protocol asks for. *)
Theorem C37_immediate : forall valid q did c s s' rq head datas st,
  reachable valid q did s -> block_request valid (v_mem s) c rq head datas st ->
  c_head c < q -> total_len (rq_data rq) < 2 ^ 32 ->
  process_chain valid q did c s = Ok s' -> v_ops s' = v_ops s ->
  v_used s' = v_used s ++ [c_head c] /\
  match rq_type rq with
  | TIn => v_mem s' (rq_status rq) = 1 /\ total_len (rq_data rq) mod 512 <> 0
  | TOut => v_mem s' (rq_status rq) = 1 /\
      (total_len (rq_data rq) mod 512 <> 0 \/ ~ segs_valid valid (rq_data rq))
  | TFlush => False
  | TGetId => exists a n r, rq_data rq = (a, n) :: r /\
      (v_mem s' (rq_status rq) = 0 -> 20 <= n /\
        (forall x, a <= x < a + 20 -> x <> rq_status rq) ->
         map (v_mem s') (range a 20) = firstn 20 (did ++ repeat 0 20)) /\
      (20 <= n -> (forall x, a <= x < a + 20 -> valid x = true) -> v_mem s' (rq_status rq) = 0) /\
      (n < 20 -> v_mem s' (rq_status rq) = 1)
  | _ => v_mem s' (rq_status rq) = 2
  end.
Proof.
  intros * Hr B Hq Hlen Hp Ho. pose proof (reachable_inv _ _ _ _ Hr) as Hi.
  assert (E : parse valid (v_mem s) c = Ok rq) by (apply parse_ok; eauto).
  pose proof (parse_status_valid _ _ _ _ E) as Hv.
  assert (NH : forall rq' o, handed_over valid (c_head c) rq' s s' o -> False).
  { intros rq' o F. rewrite (ho_ops _ _ _ _ _ _ F) in Ho.
    apply (f_equal (@length _)) in Ho. rewrite app_length in Ho. cbn [length] in Ho. lia. }
  split.
  { destruct (process_chain_effect _ _ _ _ _ _ Hi Hp) as [F|(rq' & o & _ & F)]; [|exfalso; eauto].
    rewrite (fa_used _ _ _ _ _ F). unfold in_queue. destruct (N.ltb_spec (c_head c) q); [reflexivity|lia]. }
  assert (STAT : forall a st0 s0, valid a = true -> v_mem (complete_io valid q (c_head c) a st0 s0) a = st0).
  { intros a st0 s0 Hva. destruct (complete_io_effect valid q (c_head c) a st0 s0 Hva) as (-> & _).
    unfold gm_upd. rewrite N.eqb_refl. reflexivity. }
  unfold process_chain in Hp. rewrite E in Hp. destruct (rq_type rq) eqn:Et.
  - destruct (process_read_effect _ _ _ _ _ _ Hi Hv Et Hp) as [[Hm ->]|(_ & id & F)]; [|exfalso; eauto].
    split; [apply STAT, Hv|]. rewrite request_len_total in Hm by lia. exact Hm.
  - unfold process_write in Hp.
    destruct (request_len 0 (rq_data rq) mod SECTOR =? 0) eqn:Em; cbn [negb] in Hp.
    + destruct (process_write_effect valid q rq (c_head c) s s' Hi Hv Et) as [(_ & Hmem & _)|(_ & id & b0 & b & _ & _ & F)].
      { unfold process_write. rewrite Em. exact Hp. }
      2:{ exfalso. eauto. }
      split. { rewrite Hmem. unfold gm_upd. rewrite N.eqb_refl. reflexivity. }
      right. intros Hsv.
      destruct (get_request_slot _ _ _ _) as [id sls].
      destruct (gather valid (v_mem s) _ 0 true (rq_data rq)) as [[b ok]| |] eqn:Eg; cbn [bindr] in Hp; try discriminate.
      assert (ok = true) as -> by (apply (gather_flag _ _ _ _ _ _ _ _ Eg); auto).
      injection Hp as <-. cbn [emit set_slots v_ops] in Ho.
      apply (f_equal (@length _)) in Ho. rewrite app_length in Ho. cbn [length] in Ho. lia.
    + injection Hp as <-. split; [apply STAT, Hv|]. left. rewrite request_len_total in Em by lia.
      change (total_len (rq_data rq) mod SECTOR =? 0 = false) in Em. apply N.eqb_neq in Em. exact Em.
  - destruct (process_flush_effect _ _ _ _ _ Hi Hv Et Hp) as (id & F). eauto.
  - unfold process_get_device_id in Hp. destruct (rq_data rq) as [|[a n] r] eqn:Ed; [discriminate|].
    exists a, n, r. split; [reflexivity|]. cbn [index nth_error bindr] in Hp.
    change ID_BYTES with 20 in Hp. destruct (N.ltb_spec n 20).
    + injection Hp as <-. rewrite STAT by exact Hv. repeat split; intros; lia.
    + destruct (gm_write valid (v_mem s) a (id_bytes did)) as [m ok] eqn:Ew. injection Hp as <-.
      rewrite STAT by exact Hv.
      assert (Eid : id_bytes did = firstn 20 (did ++ repeat 0 20)).
      { unfold id_bytes. change (N.to_nat ID_BYTES) with 20%nat. rewrite firstn_app.
        destruct (Nat.le_gt_cases 20 (length did)).
        - rewrite Nat.min_r by lia. replace (20 - length did)%nat with 0%nat by lia.
          rewrite Nat.sub_diag. reflexivity.
        - rewrite Nat.min_l by lia. rewrite firstn_all, (firstn_all2 (n := 20)) by lia. f_equal.
          set (k := (20 - length did)%nat). assert (k <= 20)%nat as Hk by lia. clearbody k.
          do 21 (destruct k as [|k]; [reflexivity|]). lia. }
      assert (Lid : length (id_bytes did) = 20%nat).
      { rewrite Eid, firstn_length, app_length, repeat_length. lia. }
      repeat split; try (intros; lia).
      * intros Hok [_ Hd]. destruct ok; [|discriminate].
        destruct (complete_io_effect valid q (c_head c) (rq_status rq) S_OK (set_mem m s) Hv) as (-> & _).
        cbn [set_mem v_mem]. rewrite <- Eid. pose proof (gm_write_ok _ _ _ _ _ Ew) as Wk. rewrite Lid in Wk.
        transitivity (map m (range a 20)); [|exact Wk].
        apply map_ext_in. intros x Hx. apply in_range in Hx. unfold gm_upd.
        destruct (N.eqb_spec x (rq_status rq)); [|reflexivity]. exfalso. eapply Hd; [|eauto]. lia.
      * intros _ Hall. pose proof (gm_write_valid valid (id_bytes did) (v_mem s) a) as V.
        rewrite Ew, Lid in V. cbn [snd] in V. 
        assert (ok = true) as ->; [|reflexivity].
        rewrite V. apply forallb_forall. intros x Hx. apply in_range in Hx. apply Hall. lia.
  - injection Hp as <-. apply STAT, Hv.
  - injection Hp as <-. apply STAT, Hv.
  - injection Hp as <-. apply STAT, Hv.
Qed.

(** The example run: the write gathers both descriptors, the read is scattered, the
    failed flush is reported, and all three chains come back. *)
Example C37_nonvacuous : exists s, run ex_valid 8 [65] (vinit ex_mem 2 512) ex_run = Ok s /\
  v_used s = [5; 2; 6] /\ v_out s = [] /\
  v_ops s = [VRead 3 1 0; VWrite 5 1 1 (repeat 7 512); VFlush 2] /\
  map (v_mem s) [64; 65; 66] = [0; 0; 1] /\
  seg_contents (v_mem s) [(1024, 100); (2048, 412)] = ex_data.
Proof. eexists. split; [vm_compute; reflexivity|]. vm_compute. auto. Qed.
Example C37_nonvacuous_disjoint : segs_disjoint [(1024, 100); (2048, 412)] /\ segs_valid ex_valid [(1024, 100); (2048, 412)].
Proof.
  split.
  - cbn [segs_disjoint]. split; [|split; [|exact Logic.I]].
    + intros x Hx (s & [<-|[]] & Hs). unfold in_seg in *. cbn [fst snd] in *. lia.
    + intros x _ (s & [] & _).
  - intros x (s & [<-|[<-|[]]] & Hs); unfold in_seg in Hs; cbn [fst snd] in Hs; unfold ex_valid; lia.
Qed.

(** ** C50: notifications *)

Lemma run_app : forall valid q did es1 es2 s, run valid q did s (es1 ++ es2) =
  bindr (run valid q did s es1) (fun s' => run valid q did s' es2).
Proof.
  induction es1; intros; cbn [app run]; [reflexivity|].
  destruct (step valid q did s a) as [s1| |]; cbn [bindr]; auto.
Qed.

Lemma process_queue_run : forall valid q did chains dones ei nd s,
  process_queue valid q did chains dones ei nd s =
  run valid q did s (map EPop chains ++ map (fun '(id, ok, data) => EDone id ok data) dones ++ [ESignal ei nd]).
Proof.
  intros. unfold process_queue. rewrite run_app.
  assert (E : process_chains valid q did chains s = run valid q did s (map EPop chains)).
  { revert s. induction chains; intros; cbn [process_chains map run step]; [reflexivity|].
    destruct (process_chain valid q did a s); cbn [bindr]; auto. }
  rewrite E. destruct (run valid q did s (map EPop chains)) as [s1| |]; cbn [bindr]; auto.
  rewrite run_app.
  assert (E2 : poll_io valid q dones s1 = run valid q did s1 (map (fun '(id, ok, data) => EDone id ok data) dones)).
  { clear. revert s1. induction dones as [|[[id ok] data] dones IH]; intros; cbn [poll_io map run step]; [reflexivity|].
    destruct (complete_one valid q id ok data s1); cbn [bindr]; auto. }
  rewrite E2. destruct (run valid q did s1 _) as [s2| |]; cbn [bindr run step]; auto.
Qed.

Lemma step_pend : forall valid q did s e s', vinv valid s -> channel_contract s e ->
  ~ rejected valid s e -> (forall ei nd, e <> ESignal ei nd) ->
  step valid q did s e = Ok s' -> (v_used s' = v_used s /\ v_pend s' = v_pend s) \/ v_pend s' = true.
Proof.
  intros * Hi Hc Hnr Hns H. destruct e; cbn [step] in H.
  - unfold process_chain in H.
    destruct (parse valid (v_mem s) c) as [rq|t|] eqn:Ep; [|exfalso; apply Hnr; exists c, t; auto|discriminate].
    pose proof (parse_status_valid _ _ _ _ Ep) as Hv.
    destruct (rq_type rq) eqn:Et.
    + destruct (process_read_effect _ _ _ _ _ _ Hi Hv Et H) as [[_ ->]|(_ & id & Hh)].
      * right. apply complete_io_effect, Hv.
      * left. split; apply Hh.
    + destruct (process_write_effect _ _ _ _ _ _ Hi Hv Et H) as [(_ & _ & ?)|(_ & id & b0 & b & _ & _ & Hh)]; [auto|].
      left. split; apply Hh.
    + destruct (process_flush_effect _ _ _ _ _ Hi Hv Et H) as (id & Hh). left. split; apply Hh.
    + right. eapply process_get_id_effect; eauto.
    + right. injection H as <-. apply complete_io_effect, Hv.
    + right. injection H as <-. apply complete_io_effect, Hv.
    + right. injection H as <-. apply complete_io_effect, Hv.
  - destruct Hc as [Hin Hc]. destruct (out_slot _ _ _ Hi Hin) as (sl & Hs & _ & _).
    destruct (complete_one_effect _ _ _ _ _ _ _ _ Hi Hin Hs (fun o t => Hc o _ Hs t) H) as [F _].
    right. apply F.
  - exfalso. eapply Hns. reflexivity.
  - injection H as <-. left. auto.
Qed.

Lemma run_pend : forall valid q did es s s', vinv valid s ->
  along valid q did channel_contract s es ->
  along valid q did (fun s e => ~ rejected valid s e) s es ->
  (forall e, In e es -> forall ei nd, e <> ESignal ei nd) ->
  run valid q did s es = Ok s' -> (v_used s' = v_used s /\ v_pend s' = v_pend s) \/ v_pend s' = true.
Proof.
  induction es as [|e es IH]; intros s s' Hi Ha Hn Hs H; cbn [run along] in *.
  - injection H as <-. auto.
  - destruct Ha as [Hc Ha], Hn as [Hr Hn].
    destruct (step valid q did s e) as [s1| |] eqn:E; cbn [bindr] in H; try discriminate.
    specialize (Ha _ eq_refl). specialize (Hn _ eq_refl).
    assert (Hi1 : vinv valid s1) by (eapply step_inv; eauto).
    destruct (IH s1 s' Hi1 Ha Hn (fun e He => Hs e (or_intror He)) H) as [[U P]|?]; [|auto].
    rewrite U, P. eapply step_pend; eauto. intros ei nd. apply (Hs e (or_introl eq_refl)).
Qed.

(** A round of the queue that returns chains to the guest (none of them malformed)
    notifies the guest, unless the guest asked not to be, in which case the
    notification stays due. *)
Theorem C50_notified : forall valid q did chains dones ei nd s s',
  let es := map EPop chains ++ map (fun '(id, ok, data) => EDone id ok data) dones in
  reachable valid q did s ->
  along valid q did channel_contract s es ->
  along valid q did (fun s e => ~ rejected valid s e) s es ->
  process_queue valid q did chains dones ei nd s = Ok s' ->
  v_used s' <> v_used s \/ v_pend s = true ->
  if negb ei || nd then v_signals s' = S (v_signals s) /\ v_pend s' = false
  else v_signals s' = v_signals s /\ v_pend s' = true.
Proof.
  intros * Hr Ha Hn H Hu. rewrite process_queue_run, app_assoc, run_app in H. fold es in H.
  destruct (run valid q did s es) as [s1| |] eqn:E; cbn [bindr run step] in H; try discriminate.
  injection H as <-. pose proof (reachable_inv _ _ _ _ Hr) as Hi.
  destruct (signal_rest ei nd s1) as (_ & _ & _ & _ & U). rewrite U in Hu. clear U.
  assert (Hsig : forall es s s1, (forall e, In e es -> forall ei nd, e <> ESignal ei nd) ->
            vinv valid s -> along valid q did channel_contract s es ->
            run valid q did s es = Ok s1 -> v_signals s1 = v_signals s).
  { clear. induction es as [|e es IH]; intros s s1 Hes Hi Ha H; cbn [run along] in *; [injection H as <-; auto|].
    destruct Ha as [Hc Ha]. destruct (step valid q did s e) as [s2| |] eqn:E; cbn [bindr] in H; try discriminate.
    specialize (Ha _ eq_refl).
    rewrite (IH s2 s1 (fun e He => Hes e (or_intror He)) (step_inv _ _ _ _ _ _ Hi Hc E) Ha H).
    clear - E Hes. assert (A : forall h a st s, v_signals (complete_io valid q h a st s) = v_signals s).
    { intros. unfold complete_io. destruct (gm_write valid _ a [st]) as [m [|]]; [|reflexivity].
      unfold add_used. destruct (h <? q); reflexivity. }
    destruct e; cbn [step] in E.
    - unfold process_chain in E. destruct (parse valid (v_mem s) c) as [rq| |]; try discriminate.
      + destruct (rq_type rq); try (injection E as <-; apply A).
        * unfold process_read in E. destruct (negb _); [injection E as <-; apply A|].
          destruct (get_request_slot _ _ _ _). injection E as <-. reflexivity.
        * unfold process_write in E. destruct (negb _); [injection E as <-; apply A|].
          destruct (get_request_slot _ _ _ _).
          destruct (gather _ _ _ _ _ _) as [[? [|]]| |]; cbn [bindr] in E; try discriminate;
            injection E as <-; cbn [put_request_slot set_slots emit v_signals]; rewrite ?A; reflexivity.
        * unfold process_flush in E. destruct (get_request_slot _ _ _ _). injection E as <-. reflexivity.
        * unfold process_get_device_id in E.
          destruct (index (rq_data rq) 0) as [[a n]| |]; cbn [bindr] in E; try discriminate.
          destruct (n <? ID_BYTES); [injection E as <-; apply A|].
          destruct (gm_write valid (v_mem s) a (id_bytes did)). injection E as <-. rewrite A. reflexivity.
      + injection E as <-. unfold complete_bad_chain, add_used. destruct (c_head c <? q); reflexivity.
    - unfold complete_one in E. destruct (index (v_slots s) id) as [sl| |]; cbn [bindr] in E; try discriminate.
      destruct (sl_chain _); [|injection E as <-; reflexivity].
      match type of E with bindr ?x _ = _ => destruct x as [[m ok]| |] end; cbn [bindr] in E; try discriminate.
      injection E as <-. cbn [put_request_slot set_slots v_signals]. rewrite A. reflexivity.
    - exfalso. eapply (Hes _ (or_introl eq_refl)). reflexivity.
    - injection E as <-. reflexivity. }
  assert (Hes : forall e, In e es -> forall ei nd, e <> ESignal ei nd).
  { intros e He. unfold es in He. apply in_app_iff in He as [He|He]; apply in_map_iff in He as (x & <- & _).
    - discriminate.
    - destruct x as [[? ?] ?]. discriminate. }
  rewrite <- (Hsig es s s1 Hes Hi Ha E).
  assert (P : v_pend s1 = true).
  { destruct (run_pend _ _ _ _ _ _ Hi Ha Hn Hes E) as [[U P]|?]; [|auto].
    destruct Hu; [contradiction|congruence]. }
  unfold signal. rewrite P. destruct ei, nd; cbn [negb orb]; cbn; auto.
Qed.

(** A chain the backend rejects is returned to the guest without a notification. *)
Theorem C50_refuted_bad_chain : exists c s', 
  process_queue ex_valid 8 [] [c] [] false true (vinit ex_mem 2 512) = Ok s' /\
  v_used s' = [3] /\ v_signals s' = 0%nat /\ v_pend s' = false.
Proof.
  exists (mk_chain 3 [mk_desc 0 16 true false]). eexists. split; [reflexivity|]. vm_compute. auto.
Qed.

Example C50_nonvacuous : exists s', process_queue ex_valid 8 [65]
    [ex_read; ex_flush] [(1%nat, true, []); (0%nat, true, ex_data)] false false (vinit ex_mem 2 512) = Ok s' /\
  v_used s' = [6; 2] /\ v_signals s' = 1%nat.
Proof. eexists. split; [vm_compute; reflexivity|]. vm_compute. auto. Qed.

(** ** C38 *)

(** Any read of the configuration space returns exactly the requested number of
    bytes: the configuration followed by zeros. *)
Theorem C38_config_size : forall c offset size, N.of_nat (length (get_config c offset size)) = size.
Proof.
  intros. unfold get_config. rewrite app_length, firstn_length, skipn_length, repeat_length. lia.
Qed.

Lemma vconfig_bytes_length : forall c, length (vconfig_bytes c) = 60%nat.
Proof. intros. unfold vconfig_bytes. rewrite !app_length, !le_bytes_length. reflexivity. Qed.

Theorem C38_config_bytes : forall c offset size i, (i < N.to_nat size)%nat ->
  nth i (get_config c offset size) 0 = nth i (vconfig_bytes c) 0.
Proof.
  intros c offset size i Hi. unfold get_config. rewrite vconfig_bytes_length.
  set (n := N.to_nat size) in *. destruct (Nat.lt_ge_cases i 60).
  - rewrite app_nth1 by (rewrite firstn_length, vconfig_bytes_length; lia).
    rewrite <- (firstn_skipn (Nat.min n 60) (vconfig_bytes c)) at 2.
    rewrite app_nth1 by (rewrite firstn_length, vconfig_bytes_length; lia). reflexivity.
  - rewrite (nth_overflow (vconfig_bytes c)) by (rewrite vconfig_bytes_length; lia).
    rewrite app_nth2 by (rewrite firstn_length, vconfig_bytes_length; lia).
    assert (A : forall l, Forall (fun x => x = 0) l -> forall j, nth j l 0 = 0).
    { induction 1; intros [|j]; cbn [nth]; auto. }
    apply A. apply Forall_forall. intros x Hx.
    assert (In x (repeat 0 n)) as Hin.
    { rewrite <- (firstn_skipn (Nat.min n 60) (repeat 0 n)). apply in_or_app. right. exact Hx. }
    apply repeat_spec in Hin. exact Hin.
Qed.

(** The guest finds the size of the device, the segment limits, the block size and
    the number of queues at their place in the virtio-blk layout. *)
Theorem C38_fields : forall nsectors ssm scm nq wt offset size,
  nsectors < 2 ^ 64 -> ssm < 2 ^ 32 -> scm < 2 ^ 32 -> nq < 2 ^ 16 -> 60 <= size ->
  let b := get_config (build_vconfig nsectors ssm scm nq wt) offset size in
  le_val (firstn 8 b) = nsectors /\ le_val (firstn 4 (skipn 8 b)) = ssm /\
  le_val (firstn 4 (skipn 12 b)) = scm /\ le_val (firstn 4 (skipn 20 b)) = 512 /\
  nth 32 b 0 = (if wt then 0 else 1) /\ le_val (firstn 2 (skipn 34 b)) = nq.
Proof.
  intros nsectors ssm scm nq wt offset size H1 H2 H3 H4 H5 b.
  assert (E : exists r, b = vconfig_bytes (build_vconfig nsectors ssm scm nq wt) ++ r).
  { unfold b, get_config. rewrite Nat.min_r by (rewrite vconfig_bytes_length; lia).
    rewrite firstn_all. eauto. }
  destruct E as (r & ->).
  set (c := build_vconfig nsectors ssm scm nq wt).
  replace nsectors with (vc_capacity c) in * by reflexivity.
  replace ssm with (vc_size_max c) in * by reflexivity.
  replace scm with (vc_seg_max c) in * by reflexivity.
  assert (Hnq : vc_num_queues c = nq) by (apply N.mod_small, H4).
  assert (G : forall n v, (forall k, n = k -> v < 256 ^ N.of_nat k) -> le_val (le_bytes n v) = v).
  { intros n v Hv. apply le_val_le_bytes. apply Hv. reflexivity. }
  unfold vconfig_bytes.
  repeat split.
  - rewrite <- !app_assoc. rewrite firstn_app_exact by apply le_bytes_length. apply G. intros k <-. exact H1.
  - rewrite <- !app_assoc. rewrite skipn_app_exact by apply le_bytes_length.
    rewrite firstn_app_exact by apply le_bytes_length. apply G. intros k <-. exact H2.
  - rewrite (app_assoc (le_bytes 8 _)). rewrite <- !app_assoc. 
    rewrite (app_assoc (le_bytes 8 _)). rewrite skipn_app_exact by (rewrite app_length, !le_bytes_length; reflexivity).
    rewrite firstn_app_exact by apply le_bytes_length. apply G. intros k <-. exact H3.
  - unfold c. clear. cbn [le_bytes app nth vc_writeback build_vconfig]. destruct wt; reflexivity.
  - rewrite <- Hnq. cbn [le_bytes app skipn firstn].
    change (le_val (le_bytes 2 (vc_num_queues c)) = vc_num_queues c). apply G. intros k <-.
    rewrite Hnq. exact H4.
Qed.

Example C38_nonvacuous : get_config (build_vconfig 2048 65536 16 4 false) 256 20 =
  [0;8;0;0;0;0;0;0; 0;0;1;0; 16;0;0;0; 0;0;0;0].
Proof. vm_compute. reflexivity. Qed.

Print Assumptions C35_accepted_iff.
Print Assumptions C35_no_panic.
Print Assumptions C35_rejected.
Print Assumptions C35_refuted_header_length.
Print Assumptions C35_refuted_id_into_read_only.
Print Assumptions C36_no_panic_within_limits_partial.
Print Assumptions C36_refuted_get_id.
Print Assumptions C36_refuted_write_length.
Print Assumptions C36_refuted_read_length.
Print Assumptions C36_refuted_lazy_out_of_range.
Print Assumptions C36_refuted_lazy_zero_length.
Print Assumptions C36_refuted_memory.
Print Assumptions C37_exactly_once.
Print Assumptions C37_all_returned.
Print Assumptions C37_own_slot.
Print Assumptions C37_forwarded.
Print Assumptions C37_completion.
Print Assumptions C37_immediate.
Print Assumptions C38_config_size.
Print Assumptions C38_config_bytes.
Print Assumptions C38_fields.
Print Assumptions C50_notified.
Print Assumptions C50_refuted_bad_chain.
