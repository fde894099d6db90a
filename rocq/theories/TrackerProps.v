(** C40: I/O statistics and snapshots. *)
From Coq Require Import List NArith ZArith Arith Bool Lia ZifyBool ZifyNat ZifyN.
From Verif Require Import Base BaseFacts TrackerModel.
Import ListNotations.
Local Open Scope N_scope.

(** ** Specification *)

(** What a queue is doing in one slot, as the control interface reports it (a flush is
    reported without offset and length, rpc.rs:200-204). *)
Inductive activity := ARead (off len : N) | AWrite (off len : N) | AFlush.

Definition shown (x : io_kind * N * N) : activity :=
  match x with
  | (KRead, off, len) => ARead off len
  | (KWrite, off, len) => AWrite off len
  | (KFlush, _, _) => AFlush
  end.

Definition slot_of (c : tcall) : nat :=
  match c with TRead s _ _ => s | TWrite s _ _ => s | TFlush s => s | TClear s => s end.

Definition becomes (c : tcall) : option activity :=
  match c with
  | TRead _ o l => Some (ARead o l) | TWrite _ o l => Some (AWrite o l)
  | TFlush _ => Some AFlush | TClear _ => None
  end.

(** The operation in flight in a slot: the last one issued there, unless it was
    cleared since. *)
Fixpoint in_flight_from (cur : option activity) (cs : list tcall) (slot : nat) : option activity :=
  match cs with
  | [] => cur
  | c :: r => in_flight_from (if (slot_of c =? slot)%nat then becomes c else cur) r slot
  end.
Definition in_flight := in_flight_from None.

Definition listed (a : option activity) : list activity :=
  match a with Some x => [x] | None => [] end.

Definition sum (l : list N) : N := fold_right N.add 0 l.
Definition bytes_read (cs : list tcall) : N :=
  sum (map (fun c => match c with TRead _ _ l => 512 * l | _ => 0 end) cs).
Definition bytes_written (cs : list tcall) : N :=
  sum (map (fun c => match c with TWrite _ _ l => 512 * l | _ => 0 end) cs).
Definition count (f : tcall -> bool) (cs : list tcall) : N := N.of_nat (length (filter f cs)).
Definition is_read c := match c with TRead _ _ _ => true | _ => false end.
Definition is_write c := match c with TWrite _ _ _ => true | _ => false end.
Definition is_flush c := match c with TFlush _ => true | _ => false end.

(** ** Counters *)
Lemma fetch_add_fold : forall a b c, (a + fetch_add b c) mod 2 ^ 64 = ((a + c) + b) mod 2 ^ 64.
Proof.
  intros. unfold fetch_add. rewrite N.add_mod_idemp_r by discriminate. f_equal. lia.
Qed.

Theorem C40_counters : forall n cs,
  cumulative_stats (tcalls (tracker_new n) cs) =
  (bytes_read cs mod 2 ^ 64, bytes_written cs mod 2 ^ 64,
   count is_read cs mod 2 ^ 64, count is_write cs mod 2 ^ 64, count is_flush cs mod 2 ^ 64).
Proof.
  intros n cs. induction cs as [|c cs IH] using rev_ind; [reflexivity|].
  unfold tcalls in *. rewrite fold_left_app. cbn [fold_left].
  unfold cumulative_stats in *. injection IH as I1 I2 I3 I4 I5.
  assert (S : forall f, sum (map f (cs ++ [c])) = sum (map f cs) + f c).
  { intros f. unfold sum. induction cs; cbn [map app fold_right]; [lia|].
    clear - IHcs. assert (H : forall l, fold_right N.add 0 (map f (l ++ [c])) = fold_right N.add 0 (map f l) + f c).
    { induction l; cbn [map app fold_right]; [lia|]. rewrite IHl. lia. }
    rewrite H. lia. }
  assert (F : forall f, count f (cs ++ [c]) = count f cs + (if f c then 1 else 0)).
  { intros f. unfold count. rewrite filter_app, app_length. cbn [filter]. destruct (f c); cbn [length]; lia. }
  unfold bytes_read, bytes_written in *. rewrite !S, !F.
  destruct c; cbn [tcall_step t_add_read t_add_write t_add_flush t_clear t_bytes_read t_bytes_written
    t_read_ops t_write_ops t_flush_ops is_read is_write is_flush] in *;
    rewrite ?I1, ?I2, ?I3, ?I4, ?I5; rewrite ?N.add_0_r;
    unfold fetch_add; rewrite ?N.add_mod_idemp_l by discriminate; rewrite ?(N.mul_comm _ 512); reflexivity.
Qed.

(** The counters are exact while they do not exceed 64 bits. *)
Corollary C40_counters_exact : forall n cs, bytes_read cs < 2 ^ 64 -> bytes_written cs < 2 ^ 64 ->
  N.of_nat (length cs) < 2 ^ 64 ->
  cumulative_stats (tcalls (tracker_new n) cs) =
  (bytes_read cs, bytes_written cs, count is_read cs, count is_write cs, count is_flush cs).
Proof.
  intros n cs H1 H2 H3. rewrite C40_counters.
  assert (F : forall f, count f cs < 2 ^ 64).
  { intros f. unfold count. assert (length (filter f cs) <= length cs)%nat; [|lia].
    clear. induction cs; cbn; [lia|]. destruct (f a); cbn; lia. }
  rewrite !N.mod_small by auto. reflexivity.
Qed.

(** ** Snapshots *)

(** What a record says about its slot. *)
Definition matches (r : rec) (a : option activity) : Prop :=
  match a with
  | None => r_kind r = 0
  | Some (ARead o l) => r = mk_rec 1 o l
  | Some (AWrite o l) => r = mk_rec 2 o l
  | Some AFlush => r_kind r = 3
  end.

Lemma snap_matches : forall r a, matches r a ->
  exists l, snap_one (r_kind r) (r_off r) (r_len r) = Ok l /\ map shown l = listed a.
Proof.
  intros [k o l] a H. unfold snap_one. destruct a as [[o' l'|o' l'|]|]; cbn in H |- *;
    try (injection H as -> -> ->); subst; eexists; split; reflexivity.
Qed.

Lemma set_kind_length : forall s k l, length (set_kind s k l) = length l.
Proof. intros. unfold set_kind. destruct (nth_error l s); auto using set_nth_length. Qed.

Lemma in_flight_snoc : forall cs c s cur, in_flight_from cur (cs ++ [c]) s =
  if (slot_of c =? s)%nat then becomes c else in_flight_from cur cs s.
Proof. induction cs; intros; cbn [app in_flight_from]; auto. Qed.

Lemma step_matches : forall l c s r (f : nat -> option activity) t,
  t_ios t = l -> nth_error (t_ios (tcall_step t c)) s = Some r ->
  (forall s r, nth_error l s = Some r -> matches r (f s)) ->
  matches r (if (slot_of c =? s)%nat then becomes c else f s).
Proof.
  intros l c s r f t <- H I.
  assert (Hlen : forall r', nth_error (t_ios t) (slot_of c) = Some r' -> (slot_of c < length (t_ios t))%nat)
    by (intros r' E; apply nth_error_Some; congruence).
  destruct c as [sl o n|sl o n|sl|sl]; cbn [tcall_step t_add_read t_add_write t_add_flush t_clear t_ios slot_of becomes] in *.
  - unfold put_rec in H. destruct (Nat.leb_spec (length (t_ios t)) sl).
    + destruct (Nat.eqb_spec sl s); [subst; apply nth_error_None in H0; congruence|auto].
    + destruct (Nat.eqb_spec sl s); [subst; rewrite nth_error_set_nth_eq in H by lia; injection H as <-; reflexivity|].
      rewrite nth_error_set_nth_neq in H by auto. auto.
  - unfold put_rec in H. destruct (Nat.leb_spec (length (t_ios t)) sl).
    + destruct (Nat.eqb_spec sl s); [subst; apply nth_error_None in H0; congruence|auto].
    + destruct (Nat.eqb_spec sl s); [subst; rewrite nth_error_set_nth_eq in H by lia; injection H as <-; reflexivity|].
      rewrite nth_error_set_nth_neq in H by auto. auto.
  - unfold set_kind in H. destruct (nth_error (t_ios t) sl) eqn:E; destruct (Nat.eqb_spec sl s); subst; try congruence; auto.
    + rewrite nth_error_set_nth_eq in H by eauto. injection H as <-. reflexivity.
    + rewrite nth_error_set_nth_neq in H by auto. auto.
  - unfold set_kind in H. destruct (nth_error (t_ios t) sl) eqn:E; destruct (Nat.eqb_spec sl s); subst; try congruence; auto.
    + rewrite nth_error_set_nth_eq in H by eauto. injection H as <-. reflexivity.
    + rewrite nth_error_set_nth_neq in H by auto. auto.
Qed.

Lemma calls_match : forall n cs s r, nth_error (t_ios (tcalls (tracker_new n) cs)) s = Some r ->
  matches r (in_flight cs s).
Proof.
  intros n cs. induction cs as [|c cs IH] using rev_ind; intros s r H.
  - cbn in H. apply nth_error_In, repeat_spec in H. subst. reflexivity.
  - unfold tcalls in *. rewrite fold_left_app in H. cbn [fold_left] in H.
    unfold in_flight. rewrite in_flight_snoc. fold (in_flight cs s).
    eapply (step_matches _ c s r (in_flight cs)); eauto.
Qed.

Lemma calls_length : forall n cs, length (t_ios (tcalls (tracker_new n) cs)) = (n + 8)%nat.
Proof.
  intros n cs. induction cs as [|c cs IH] using rev_ind.
  - cbn [tcalls fold_left tracker_new t_ios]. apply repeat_length.
  - unfold tcalls in *. rewrite fold_left_app. cbn [fold_left]. rewrite <- IH.
    destruct c; cbn [tcall_step t_add_read t_add_write t_add_flush t_clear t_ios];
      try apply set_kind_length; unfold put_rec; destruct (_ <=? _)%nat; auto using set_nth_length.
Qed.

(** A snapshot taken while the queue is quiet lists exactly the operations in flight
    in the tracked slots, in slot order; it never panics. *)
Theorem C40_snapshot : forall n cs, exists l,
  snapshot (tcalls (tracker_new n) cs) = Ok l /\
  map shown l = flat_map (fun slot => listed (in_flight cs slot)) (seq 0 (n + 8)).
Proof.
  intros n cs. unfold snapshot.
  pose proof (calls_match n cs) as M. pose proof (calls_length n cs) as L.
  set (ios := t_ios (tcalls (tracker_new n) cs)) in *. clearbody ios. rewrite <- L. clear L.
  assert (G : forall l k, (forall s r, nth_error l s = Some r -> matches r (in_flight cs (k + s))) ->
    exists out, snap_all l = Ok out /\
      map shown out = flat_map (fun slot => listed (in_flight cs slot)) (seq k (length l))).
  { induction l as [|r l IH]; intros k H; [exists []; split; reflexivity|].
    destruct (snap_matches r (in_flight cs k)) as (a & Ea & Sa); [specialize (H 0%nat r eq_refl); rewrite Nat.add_0_r in H; exact H|].
    destruct (IH (S k)) as (b & Eb & Sb); [intros s r' E; replace (S k + s)%nat with (k + S s)%nat by lia; apply H; exact E|].
    exists (a ++ b). cbn [snap_all length seq flat_map]. rewrite Ea. cbn [bindr]. rewrite Eb. cbn [bindr].
    rewrite map_app, Sa, Sb. split; reflexivity. }
  apply (G ios 0%nat). exact M.
Qed.

Example C40_nonvacuous : exists l,
  snapshot (tcalls (tracker_new 2) [TRead 0 5 1; TWrite 1 9 2; TClear 0; TFlush 0; TRead 99 1 1]) = Ok l /\
  map shown l = [AFlush; AWrite 9 2].
Proof. eexists. split; reflexivity. Qed.

(** ** Concurrent snapshots *)

(** The queue uses a slot for a new operation only when the previous one was
    cleared. *)
Definition disciplined (cs : list tcall) : Prop :=
  forall pre c post, cs = pre ++ c :: post -> becomes c <> None -> in_flight pre (slot_of c) = None.

Definition store_slot (st : store) : nat := match st with SOff s _ => s | SLen s _ => s | SKind s _ => s end.

(** [k] calls have been carried out completely when [i] stores have been made. *)
Definition calls_done (cs : list tcall) (i k : nat) : Prop :=
  (length (flat_map stores_of (firstn k cs)) <= i)%nat /\
  ((k < length cs)%nat -> (i < length (flat_map stores_of (firstn (S k) cs)))%nat) /\ (k <= length cs)%nat.

Lemma do_stores_call : forall c t, do_stores (t_ios t) (stores_of c) = t_ios (tcall_step t c).
Proof.
  intros c t. unfold do_stores. 
  destruct c as [s o n|s o n|s|s]; cbn [stores_of fold_left do_store tcall_step t_add_read t_add_write t_add_flush t_clear t_ios]; try reflexivity.
  - unfold put_rec. destruct (nth_error (t_ios t) s) as [r|] eqn:E.
    + assert (s < length (t_ios t))%nat by (apply nth_error_Some; congruence).
      rewrite nth_error_set_nth_eq by auto. unfold set_kind. rewrite nth_error_set_nth_eq by (rewrite set_nth_length; auto).
      cbn [r_kind r_off r_len]. replace (length (t_ios t) <=? s)%nat with false by lia.
      clear. revert s. induction (t_ios t); intros [|s]; cbn; try reflexivity. f_equal. apply IHl.
    + unfold set_kind. rewrite E. rewrite E. apply nth_error_None in E. replace (length (t_ios t) <=? s)%nat with true by lia. reflexivity.
  - unfold put_rec. destruct (nth_error (t_ios t) s) as [r|] eqn:E.
    + assert (s < length (t_ios t))%nat by (apply nth_error_Some; congruence).
      rewrite nth_error_set_nth_eq by auto. unfold set_kind. rewrite nth_error_set_nth_eq by (rewrite set_nth_length; auto).
      cbn [r_kind r_off r_len]. replace (length (t_ios t) <=? s)%nat with false by lia.
      clear. revert s. induction (t_ios t); intros [|s]; cbn; try reflexivity. f_equal. apply IHl.
    + unfold set_kind. rewrite E. rewrite E. apply nth_error_None in E. replace (length (t_ios t) <=? s)%nat with true by lia. reflexivity.
Qed.

Lemma do_stores_calls : forall cs t, do_stores (t_ios t) (flat_map stores_of cs) = t_ios (tcalls t cs).
Proof.
  induction cs as [|c cs IH]; intros t; [reflexivity|].
  cbn [flat_map]. unfold do_stores in *. rewrite fold_left_app.
  pose proof (do_stores_call c t) as E. unfold do_stores in E. rewrite E. apply IH.
Qed.

Lemma do_store_other : forall l st s, store_slot st <> s -> nth_error (do_store l st) s = nth_error l s.
Proof.
  intros l st s H. destruct st; cbn [do_store store_slot] in *; unfold set_kind;
    destruct (nth_error l slot); auto using nth_error_set_nth_neq.
Qed.

Lemma do_stores_other : forall sts l s, Forall (fun st => store_slot st <> s) sts ->
  nth_error (do_stores l sts) s = nth_error l s.
Proof.
  induction sts as [|st sts IH]; intros l s H; [reflexivity|]. inversion H; subst.
  unfold do_stores in *. cbn [fold_left]. rewrite IH by auto. apply do_store_other. auto.
Qed.

Lemma stores_slot : forall c st, In st (stores_of c) -> store_slot st = slot_of c.
Proof. intros [] st H; cbn in H; intuition; subst; reflexivity. Qed.

(** If a slot is not touched while the snapshot reads it, the snapshot reports
    exactly the operation in flight there at that moment, even in the middle
    of a call. *)
Theorem C40_concurrent_exact : forall n cs slot i1 i2 i3 k,
  disciplined cs -> (slot < n + 8)%nat ->
  (i1 <= i2)%nat -> (i2 <= i3)%nat -> calls_done cs i1 k ->
  Forall (fun st => store_slot st <> slot) (skipn i1 (firstn i3 (flat_map stores_of cs))) ->
  exists l, racy_snap (t_ios (tracker_new n)) (flat_map stores_of cs) i1 i2 i3 slot = Ok l /\
    map shown l = listed (in_flight (firstn k cs) slot).
Proof.
  intros n cs slot i1 i2 i3 k D Hs H12 H23 (K1 & K2 & K3) Hq. unfold racy_snap.
  set (sts := flat_map stores_of cs) in *. set (l0 := t_ios (tracker_new n)).
  assert (Same : forall j, (i1 <= j)%nat -> (j <= i3)%nat ->
     nth_error (do_stores l0 (firstn j sts)) slot = nth_error (do_stores l0 (firstn i1 sts)) slot).
  { intros j J1 J3.
    assert (E : firstn j sts = firstn i1 sts ++ skipn i1 (firstn j sts)).
    { rewrite <- (firstn_skipn i1 (firstn j sts)) at 1. rewrite firstn_firstn, Nat.min_l by lia. reflexivity. }
    rewrite E. unfold do_stores. rewrite fold_left_app. fold (do_stores l0 (firstn i1 sts)).
    apply do_stores_other. apply Forall_forall. intros st Hin. rewrite Forall_forall in Hq. apply Hq.
    assert (E3 : skipn i1 (firstn i3 sts) = skipn i1 (firstn j sts) ++ skipn j (firstn i3 sts) \/ (length sts < j)%nat).
    { destruct (Nat.le_gt_cases j (length sts)) as [Lj|]; [left|right; auto].
      rewrite <- (firstn_skipn j (firstn i3 sts)) at 1. rewrite firstn_firstn, Nat.min_l by lia.
      rewrite skipn_app. f_equal.
      rewrite firstn_length. replace (i1 - Nat.min j (length sts))%nat with 0%nat by lia. reflexivity. }
    destruct E3 as [E3|Lj].
    - rewrite E3. apply in_or_app. left. exact Hin.
    - rewrite firstn_all2 in Hin by lia. rewrite firstn_all2 by lia. exact Hin. }
  rewrite (Same i2), (Same i3) by lia.
  assert (R : exists r, nth_error (do_stores l0 (firstn i1 sts)) slot = Some r /\
              snap_one (r_kind r) (r_off r) (r_len r) = snap_one (r_kind r) (r_off r) (r_len r) /\
              (matches r (in_flight (firstn k cs) slot))).
  { set (done := flat_map stores_of (firstn k cs)) in *.
    assert (Ests : sts = done ++ flat_map stores_of (skipn k cs)).
    { unfold sts, done. rewrite <- flat_map_app, firstn_skipn. reflexivity. }
    assert (E1 : firstn i1 sts = done ++ firstn (i1 - length done) (flat_map stores_of (skipn k cs))).
    { rewrite Ests, firstn_app. rewrite firstn_all2 by exact K1. reflexivity. }
    rewrite E1. unfold do_stores. rewrite fold_left_app.
    fold (do_stores l0 done).
    replace (do_stores l0 done) with (t_ios (tcalls (tracker_new n) (firstn k cs)))
      by (unfold done, l0; rewrite do_stores_calls; reflexivity).
    pose proof (calls_length n (firstn k cs)) as L. pose proof (calls_match n (firstn k cs)) as M.
    set (l1 := t_ios (tcalls (tracker_new n) (firstn k cs))) in *.
    destruct (skipn k cs) as [|c rest] eqn:Ek.
    - cbn [flat_map]. rewrite firstn_nil. cbn [fold_left].
      destruct (nth_error l1 slot) as [r|] eqn:Er; [|apply nth_error_None in Er; lia].
      exists r. auto.
    - assert (Kl : (k < length cs)%nat).
      { destruct (Nat.lt_ge_cases k (length cs)); auto. rewrite skipn_all2 in Ek by lia. discriminate. }
      specialize (K2 Kl).
      assert (Ecs : cs = firstn k cs ++ c :: rest) by (rewrite <- Ek; symmetry; apply firstn_skipn).
      assert (ES : firstn (S k) cs = firstn k cs ++ [c]).
      { rewrite Ecs at 1. rewrite firstn_app, firstn_length, Nat.min_l by lia.
        replace (S k - k)%nat with 1%nat by lia. rewrite firstn_firstn, Nat.min_r by lia. reflexivity. }
      rewrite ES, flat_map_app, app_length in K2. fold done in K2. cbn [flat_map] in K2. rewrite app_nil_r in K2.
      set (j := (i1 - length done)%nat). assert (Hj : (j < length (stores_of c))%nat) by (unfold j; lia).
      assert (Ej : firstn j (flat_map stores_of (c :: rest)) = firstn j (stores_of c)).
      { cbn [flat_map]. rewrite firstn_app. replace (j - length (stores_of c))%nat with 0%nat by lia.
        rewrite firstn_O, app_nil_r. reflexivity. }
      fold j. rewrite Ej. clear Ej. clearbody j.
      fold (do_stores l1 (firstn j (stores_of c))).
      assert (Dc : becomes c <> None -> in_flight (firstn k cs) (slot_of c) = None) by (intros; eapply D; eauto).
      destruct (Nat.eq_dec (slot_of c) slot) as [Es|Ns].
      + destruct (nth_error l1 slot) as [r|] eqn:Er; [|apply nth_error_None in Er; lia].
        specialize (M _ _ Er).
        assert (Hl : (slot < length l1)%nat) by lia.
        destruct j as [|[|[|j]]].
        * exists r. unfold do_stores. cbn [firstn fold_left]. auto.
        * destruct c as [s o q|s o q|s|s]; cbn [stores_of length slot_of becomes] in *; try lia; subst s;
            rewrite Dc in M |- * by discriminate; cbn [firstn]; unfold do_stores; cbn [fold_left do_store];
            rewrite Er, nth_error_set_nth_eq by auto; eexists; repeat split; exact M.
        * destruct c as [s o q|s o q|s|s]; cbn [stores_of length slot_of becomes] in *; try lia; subst s;
            rewrite Dc in M |- * by discriminate; cbn [firstn]; unfold do_stores; cbn [fold_left do_store];
            rewrite Er, nth_error_set_nth_eq by auto; rewrite nth_error_set_nth_eq by (rewrite set_nth_length; auto);
            eexists; repeat split; exact M.
        * exfalso. destruct c; cbn in Hj; lia.
      + rewrite do_stores_other.
        * destruct (nth_error l1 slot) as [r|] eqn:Er; [|apply nth_error_None in Er; lia].
          exists r. auto.
        * apply Forall_forall. intros st Hin.
          rewrite (stores_slot c); auto. rewrite <- (firstn_skipn j (stores_of c)). apply in_or_app; auto. }
  destruct R as (r & Er & _ & Mr). rewrite Er. destruct (snap_matches _ _ Mr) as (l & El & Sl). eauto.
Qed.

Example C40_concurrent_nonvacuous :
  let cs := [TRead 0 5 1; TWrite 1 9 2] in
  disciplined cs /\ calls_done cs 4 1 /\
  racy_snap (t_ios (tracker_new 2)) (flat_map stores_of cs) 4 5 6 0 = Ok [(KRead, 5, 1)].
Proof.
  cbv zeta. split; [|split; [cbv; repeat split; intros; repeat constructor|reflexivity]].
  intros pre c post E _. destruct pre as [|a [|b pre]]; cbn in E; injection E; intros; subst; try reflexivity.
  destruct pre; discriminate.
Qed.

(** A snapshot that races with the queue can report an operation that was never
    issued: the kind of one operation with the offset and length of the next one in
    the same slot. *)
Theorem C40_refuted_torn_snapshot : exists n cs i1 i2 i3 l,
  disciplined cs /\ (i1 <= i2)%nat /\ (i2 <= i3)%nat /\
  racy_snap (t_ios (tracker_new n)) (flat_map stores_of cs) i1 i2 i3 0 = Ok l /\
  map shown l = [ARead 99 8] /\
  forall k, in_flight (firstn k cs) 0 <> Some (ARead 99 8).
Proof.
  exists 1%nat, [TRead 0 10 1; TClear 0; TWrite 0 99 8], 3%nat, 7%nat, 7%nat, [(KRead, 99, 8)].
  split; [|split; [lia|split; [lia|split; [reflexivity|split; [reflexivity|]]]]].
  - intros pre c post E Hc. destruct pre as [|a [|b [|d pre]]]; cbn in E; injection E; intros; subst; try reflexivity;
      [exfalso; apply Hc; reflexivity|destruct pre; discriminate].
  - intros [|[|[|k]]]; cbn; try discriminate. destruct k; cbn; discriminate.
Qed.

Print Assumptions C40_counters.
Print Assumptions C40_counters_exact.
Print Assumptions C40_snapshot.
Print Assumptions C40_concurrent_exact.
Print Assumptions C40_refuted_torn_snapshot.
