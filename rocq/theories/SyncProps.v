(** C72: the synchronous file device (tuning.io_engine = "sync", and the xts tool)
    is a disk, and with write_through a write-through one. *)
From Coq Require Import List Arith NArith ZArith Bool Lia ZifyBool ZifyNat ZifyN.
Import ListNotations.
From Verif Require Import Base BaseFacts ListFacts DiskSpec CryptModel SyncModel SyncSpec SyncProofs.

Ltac Zify.zify_post_hook ::= Z.div_mod_to_equations.

Lemma opened : forall len nsec, (N.of_nat len < 2 ^ 63)%N -> open_device len = Ok nsec ->
  (N.of_nat nsec < 2 ^ 55)%N /\ nsec * 512 = len.
Proof.
  intros len nsec B H. unfold open_device, SECTOR in H. destruct (Nat.eqb_spec (len mod 512) 0); [|discriminate].
  cbn [negb] in H. assert (En : nsec = len / 512) by congruence. clear H. change (2 ^ 63)%N with (2 ^ 55 * 256)%N in B.
  set (b := (2 ^ 55)%N) in *. clearbody b. split; lia.
Qed.

Lemma units_of : forall us per len nsec, (us * N.of_nat per = 512)%N -> nsec * 512 = len ->
  N.to_nat (N.of_nat len / us) = nsec * per.
Proof.
  intros us per len nsec U <-. replace (N.of_nat (nsec * 512)) with ((N.of_nat nsec * N.of_nat per) * us)%N by nia.
  assert (us <> 0)%N by (intros ->; discriminate U). rewrite N.div_mul by assumption. lia.
Qed.

(** For every file of whole sectors, every sequence of calls within the device on any
    number of channels, and whatever the operating system does with the system calls
    (short transfers at any unit, interruptions, errors, any interleaving of channels)
    and at power failures, no call panics and what the caller sees is the history of an
    ordinary disk of units, be they bytes ([us = 1]) or sectors ([us = 512]); the file
    holds what that disk holds. *)
Theorem C72_file_device_is_a_disk :
  forall (V : Type) (us : N) (per : nat) (readonly osync : bool) (len nsec : nat) (contents : nat -> V)
    (es : list (sevent V)) (s : sdev V) (tr : list (titem V)),
    (us * N.of_nat per = 512)%N -> (N.of_nat len < 2 ^ 63)%N -> open_device len = Ok nsec ->
    Forall (call_in_range per nsec) es ->
    srun us per readonly osync (new_sdev (N.to_nat (N.of_nat len / us)) contents) es = Some (s, tr) ->
    s_panic s = false /\ nsec * per <= s_len s /\
    exists d, disk_behaviour (nsec * per) contents tr d /\
      forall x, cur (d_hist d x) = cur_cell (s_cell s x).
Proof.
  intros V us per ro osync len nsec contents es s tr U B O C R. destruct (opened _ _ B O) as (Hn & Hl).
  destruct (sim_run ro osync us per U nsec Hn false ltac:(discriminate) es (new_sdev (N.to_nat (N.of_nat len / us)) contents) (new_disk contents) s tr)
    as (es' & d & Rd & I); auto.
  - apply (sim_init _ us); auto; [discriminate|]. now rewrite (units_of us per len nsec U Hl).
  - split; [apply I|]. split; [apply (sm_len _ _ _ _ _ _ I)|]. exists d. split.
    + exists es'. rewrite Rd. f_equal. f_equal. clear. induction tr as [|t tr IH]; cbn; [auto|]. now rewrite IH.
    + intros x. eapply hist_cur; eauto.
Qed.

(** With write_through (O_SYNC), the caller need not flush: what it sees is what it would
    see if it flushed after every successful request. *)
Theorem C72_write_through :
  forall (V : Type) (us : N) (per : nat) (readonly : bool) (len nsec : nat) (contents : nat -> V)
    (es : list (sevent V)) (s : sdev V) (tr : list (titem V)),
    (us * N.of_nat per = 512)%N -> (N.of_nat len < 2 ^ 63)%N -> open_device len = Ok nsec ->
    Forall (call_in_range per nsec) es ->
    srun us per readonly true (new_sdev (N.to_nat (N.of_nat len / us)) contents) es = Some (s, tr) ->
    exists d, disk_behaviour (nsec * per) contents (flushed_after_each tr) d /\
      forall x, cur (d_hist d x) = cur_cell (s_cell s x).
Proof.
  intros V us per ro len nsec contents es s tr U B O C R. destruct (opened _ _ B O) as (Hn & Hl).
  destruct (sim_run ro true us per U nsec Hn true ltac:(auto) es (new_sdev (N.to_nat (N.of_nat len / us)) contents) (new_disk contents) s tr)
    as (es' & d & Rd & I); auto.
  - apply (sim_init _ us); auto. now rewrite (units_of us per len nsec U Hl).
  - exists d. split; [now exists es'|]. intros x. eapply hist_cur; eauto.
Qed.

(** ** Every request is reported exactly once, in the order of the calls *)
Definition unreported {V} (s : sdev V) (q : nat) : list (nat * nat) :=
  map (fun '(n, id, _, _) => (n, id)) (ch_finished (s_chan s q)) ++
  match ch_going (s_chan s q) with Some (n, id, _) => [(n, id)] | None => [] end.

Lemma forget_crash_app : forall {V} (tr t : list (titem V)), ~ In TCrash t -> forget_crash (tr ++ t) = forget_crash tr ++ t.
Proof.
  intros V tr t. unfold forget_crash. rewrite fold_left_app. generalize (fold_left (fun acc t => match t with TCrash => [] | _ => acc ++ [t] end) tr ([] : list (titem V))).
  induction t as [|x t IH]; intros acc N; cbn; [now rewrite app_nil_r|].
  destruct x; try (rewrite IH by (intros H; apply N; now right); now rewrite <- app_assoc).
  exfalso. apply N. now left.
Qed.

Lemma forget_crash_crash : forall {V} (tr : list (titem V)), forget_crash (tr ++ [TCrash]) = [].
Proof. intros. unfold forget_crash. now rewrite fold_left_app. Qed.

Lemma begins_unreported : forall {V} (s : sdev V) q n id g q', ch_going (s_chan s q) = None ->
  unreported (begins q n id g s) q' = unreported s q' ++ (if q =? q' then [(n, id)] else []).
Proof.
  intros V s q n id g q' H. unfold unreported.
  assert (E : s_chan (begins q n id g s) q' = s_chan s q' \/ q = q').
  { destruct (Nat.eq_dec q' q) as [->|N]; auto. left. destruct g as [? [|] ?|? [|] ? ?|?]; cbn; now rewrite upd_neq'. }
  destruct (Nat.eqb_spec q q') as [<-|N].
  - rewrite H, app_nil_r. destruct g as [? [|] ?|? [|] ? ?|?]; cbn; rewrite upd_eq'; cbn; auto; now rewrite map_app, app_nil_r.
  - destruct E as [->|]; [now rewrite app_nil_r|contradiction].
Qed.

Lemma ends_unreported : forall {V} (s : sdev V) q n id g ok data q', ch_going (s_chan s q) = Some (n, id, g) ->
  unreported (ends q n id ok data s) q' = unreported s q'.
Proof.
  intros V s q n id g ok data q' H. unfold unreported, ends. cbn. destruct (Nat.eq_dec q' q) as [->|N].
  - rewrite upd_eq', H. cbn. now rewrite map_app, app_nil_r.
  - now rewrite upd_neq'.
Qed.

Lemma again_unreported : forall {V} (s : sdev V) q n id g g' q', ch_going (s_chan s q) = Some (n, id, g) ->
  unreported (set_chan q (mk_chan (Some (n, id, g')) (ch_finished (s_chan s q))) s) q' = unreported s q'.
Proof.
  intros V s q n id g g' q' H. unfold unreported. cbn. destruct (Nat.eq_dec q' q) as [->|N].
  - now rewrite upd_eq', H.
  - now rewrite upd_neq'.
Qed.

Lemma reports_step : forall {V} us per ro osync (s : sdev V) e s' t tr q,
  sstep us per ro osync s e = Some (s', t) -> issued_on q tr = reported_on q tr ++ unreported s q ->
  issued_on q (tr ++ t) = reported_on q (tr ++ t) ++ unreported s' q.
Proof.
  intros V us per ro osync s e s' t tr q H J. unfold sstep in H. destruct (s_panic s); [discriminate|].
  assert (Nil : forall s1 : sdev V, (forall q', unreported s1 q' = unreported s q') ->
    issued_on q (tr ++ []) = reported_on q (tr ++ []) ++ unreported s1 q).
  { intros s1 E. now rewrite !app_nil_r, E. }
  assert (Iss : forall n q0 id r g, ch_going (s_chan s q0) = None ->
    issued_on q (tr ++ [TIssue n q0 id r]) = reported_on q (tr ++ [TIssue n q0 id r]) ++ unreported (begins q0 n id g s) q).
  { intros n q0 id r g Hg. unfold issued_on, reported_on. rewrite forget_crash_app by (intros [E|[]]; discriminate).
    rewrite !flat_map_app. fold (issued_on q tr) (reported_on q tr). rewrite J, begins_unreported by auto. cbn.
    rewrite !app_nil_r, <- app_assoc. reflexivity. }
  assert (Gn : forall q0, is_some (ch_going (s_chan s q0)) = false -> ch_going (s_chan s q0) = None).
  { intros q0. destruct (ch_going _); [discriminate|auto]. }
  assert (Pan : forall q', unreported (panicked s) q' = unreported s q') by reflexivity.
  destruct e as [n q0 id soff scnt buf|n q0 id soff scnt buf|n q0 id|q0 k|q0 o|q0|sv].
  - destruct (s_used s n || is_some (ch_going (s_chan s q0))) eqn:E; [discriminate|]. apply orb_false_iff in E as [_ E].
    destruct (length buf <? scnt * per); injection H as <- <-; [now apply Nil|].
    apply (Iss n q0 id (RRead (soff * per) (scnt * per)) (GRead (unit_offset us soff) (firstn (scnt * per) buf) 0)). auto.
  - destruct (s_used s n || is_some (ch_going (s_chan s q0))) eqn:E; [discriminate|]. apply orb_false_iff in E as [_ E].
    destruct (length buf <? scnt * per); injection H as <- <-; [now apply Nil|].
    apply (Iss n q0 id (RWrite (soff * per) (firstn (scnt * per) buf)) (GWrite (unit_offset us soff) (firstn (scnt * per) buf) 0 0)). auto.
  - destruct (s_used s n || is_some (ch_going (s_chan s q0))) eqn:E; [discriminate|]. apply orb_false_iff in E as [_ E].
    injection H as <- <-. apply (Iss n q0 id RFlush (GSync (s_now s))). auto.
  - destruct (ch_going (s_chan s q0)) as [[[n id] [off buf pos|off data pos cached|since]]|] eqn:Hg; try discriminate.
    destruct (ro || _); [discriminate|]. injection H as <- <-. apply Nil. intros q'.
    exact (again_unreported s q0 n id _ (GWrite off data pos (cached + k)) q' Hg).
  - assert (Same : forall n id g q', ch_going (s_chan s q0) = Some (n, id, g) -> unreported (set_chan q0 (s_chan s q0) s) q' = unreported s q').
    { intros n id g q' Hg. unfold unreported. cbn. destruct (Nat.eq_dec q' q0) as [->|N]; [now rewrite upd_eq'|now rewrite upd_neq']. }
    destruct (ch_going (s_chan s q0)) as [[[n id] [off buf pos|off data pos cached|since]]|] eqn:Hg; try discriminate.
    + destruct o as [[|k]| |].
      * injection H as <- <-. apply Nil. intros q'. eapply ends_unreported; eauto.
      * destruct (_ || _); [discriminate|]. destruct (fetch _ _ _) as [l|]; [|discriminate].
        destruct (_ =? _); injection H as <- <-; apply Nil; intros q'; [eapply ends_unreported|eapply again_unreported]; eauto.
      * injection H as <- <-. apply Nil. intros q'. eapply Same; eauto.
      * injection H as <- <-. apply Nil. intros q'. eapply ends_unreported; eauto.
    + destruct o as [[|k]| |].
      * destruct (cached =? 0); [|discriminate]. injection H as <- <-. apply Nil. intros q'. eapply ends_unreported; eauto.
      * destruct (negb _); [discriminate|].
        destruct (_ =? length data); injection H as <- <-; apply Nil; intros q'.
        -- exact (ends_unreported (set_cells _ _ s) q0 n id _ true [] q' Hg).
        -- exact (again_unreported (set_cells _ _ s) q0 n id _ _ q' Hg).
      * destruct (cached =? 0); [|discriminate]. injection H as <- <-. apply Nil. intros q'. eapply Same; eauto.
      * injection H as <- <-. apply Nil. intros q'. eapply ends_unreported; eauto.
    + destruct o as [[|k]| |]; try discriminate; injection H as <- <-; apply Nil; intros q'.
      * exact (ends_unreported (set_cells _ _ s) q0 n id _ true [] q' Hg).
      * eapply Same; eauto.
      * eapply ends_unreported; eauto.
  - destruct (is_some (ch_going (s_chan s q0))) eqn:E; [discriminate|]. injection H as <- <-.
    unfold issued_on, reported_on. rewrite forget_crash_app.
    2:{ intros Hi. apply in_map_iff in Hi as ([[[n id] ok] data] & Hd & _). discriminate. }
    rewrite !flat_map_app. fold (issued_on q tr) (reported_on q tr). rewrite J, <- !app_assoc. f_equal.
    apply Gn in E. unfold unreported. cbn [set_chan s_chan]. destruct (Nat.eq_dec q q0) as [->|N].
    + rewrite upd_eq', E. cbn. rewrite !app_nil_r.
      induction (ch_finished (s_chan s q0)) as [|[[[n id] ok] data] l IH]; cbn; auto.
      rewrite Nat.eqb_refl. cbn. now rewrite IH at 1.
    + rewrite upd_neq' by auto.
      assert (E0 : forall f, (forall x, f (TDone (fst (fst (fst x))) q0 (snd (fst (fst x))) (snd (fst x)) (map Some (snd x))) = []) ->
        flat_map f (map (fun '(n, id, ok, data) => TDone n q0 id ok (map Some data)) (ch_finished (s_chan s q0))) = ([] : list (nat * nat))).
      { intros f Hf. induction (ch_finished (s_chan s q0)) as [|[[[n id] ok] data] l IH]; cbn; auto.
        specialize (Hf (n, id, ok, data)). cbn in Hf. now rewrite Hf, IH. }
      rewrite !E0; [now rewrite app_nil_r| |]; intros [[[n id] ok] data]; cbn; auto.
      now destruct (Nat.eqb_spec q0 q); [congruence|].
  - injection H as <- <-. unfold issued_on, reported_on. rewrite forget_crash_crash. reflexivity.
Qed.

(** Since the last restart, what was reported on a channel is what was issued on it, in the
    same order, up to requests not reported yet.  When no call is under way, the next poll
    reports all of those, and [busy] tells whether there are any. *)
Theorem C72_reports :
  forall (V : Type) (us : N) (per : nat) (readonly osync : bool) (len : nat) (contents : nat -> V)
    (es : list (sevent V)) (s : sdev V) (tr : list (titem V)) (q : nat),
    srun us per readonly osync (new_sdev len contents) es = Some (s, tr) ->
    exists rest, issued_on q tr = reported_on q tr ++ rest /\
      (ch_going (s_chan s q) = None -> busy s q = false <-> rest = []) /\
      (forall s' t, sstep us per readonly osync s (SPoll q) = Some (s', t) ->
         issued_on q (tr ++ t) = reported_on q (tr ++ t) /\ busy s' q = false).
Proof.
  intros V us per ro osync len contents es s tr q R.
  assert (J : issued_on q tr = reported_on q tr ++ unreported s q).
  { assert (G : forall es (s0 : sdev V) tr0 s1 tr1, issued_on q tr0 = reported_on q tr0 ++ unreported s0 q ->
      srun us per ro osync s0 es = Some (s1, tr1) -> issued_on q (tr0 ++ tr1) = reported_on q (tr0 ++ tr1) ++ unreported s1 q).
    { clear. induction es as [|e es IH]; intros s0 tr0 s1 tr1 J H; cbn [srun] in H.
      - injection H as <- <-. now rewrite !app_nil_r.
      - destruct (sstep us per ro osync s0 e) as [[s2 t2]|] eqn:E; [|discriminate].
        destruct (srun us per ro osync s2 es) as [[s3 t3]|] eqn:E3; [|discriminate]. injection H as <- <-.
        rewrite app_assoc. eapply IH; eauto. eapply reports_step; eauto. }
    apply (G es (new_sdev len contents) [] s tr); auto. }
  exists (unreported s q). split; [exact J|]. split.
  - intros Hg. unfold busy, unreported. rewrite Hg, app_nil_r. destruct (ch_finished (s_chan s q)); cbn; split; congruence.
  - intros s' t H. split.
    + rewrite (reports_step _ _ _ _ _ _ _ _ tr q H J). unfold sstep in H. destruct (s_panic s); [discriminate|].
      destruct (is_some _); [discriminate|]. injection H as <- <-. unfold unreported. cbn. rewrite upd_eq'. apply app_nil_r.
    + unfold sstep in H. destruct (s_panic s); [discriminate|]. destruct (is_some _); [discriminate|]. injection H as <- <-.
      unfold busy. cbn. now rewrite upd_eq'.
Qed.

(** ** A device opened read-only never changes its file *)
Theorem C72_read_only :
  forall (V : Type) (us : N) (per : nat) (osync : bool) (len : nat) (contents : nat -> V)
    (es : list (sevent V)) (s : sdev V) (tr : list (titem V)),
    srun us per true osync (new_sdev len contents) es = Some (s, tr) ->
    s_len s = len /\ forall x, exists t n, s_cell s x = [mk_cell t n (contents x)].
Proof.
  intros V us per osync len contents es s tr R.
  assert (G : forall es (s0 s1 : sdev V) tr1, (s_len s0 = len /\ forall x, exists t n, s_cell s0 x = [mk_cell t n (contents x)]) ->
    srun us per true osync s0 es = Some (s1, tr1) -> s_len s1 = len /\ forall x, exists t n, s_cell s1 x = [mk_cell t n (contents x)]).
  { clear. induction es as [|e es IH]; intros s0 s1 tr1 J H; cbn [srun] in H.
    - injection H as <- <-. exact J.
    - destruct (sstep us per true osync s0 e) as [[s2 t2]|] eqn:E; [|discriminate].
      destruct (srun us per true osync s2 es) as [[s3 t3]|] eqn:E3; [|discriminate]. injection H as <- <-.
      apply (IH s2 s3 t3); [|exact E3]. clear IH E3. destruct J as (L & J).
      assert (St : forall p x, exists t n, settle p (s_cell s0 x) = [mk_cell t n (contents x)]).
      { intros p x. destruct (J x) as (t & n & ->). cbn. destruct (p _); eauto. }
      assert (Bg : forall q n id g, s_len (begins q n id g s0) = s_len s0 /\ s_cell (begins q n id g s0) = s_cell s0).
      { intros q n id g. destruct g as [? [|] ?|? [|] ? ?|?]; auto. }
      unfold sstep in E. destruct (s_panic s0); [discriminate|].
      destruct e as [n q0 id soff scnt buf|n q0 id soff scnt buf|n q0 id|q0 k|q0 o|q0|sv].
      + destruct (s_used s0 n || _); [discriminate|]. destruct (length buf <? _); injection E as <- <-; [split; auto|].
        destruct (Bg q0 n id (GRead (unit_offset us soff) (firstn (scnt * per) buf) 0)) as (E1 & E2).
        unfold begins in E1, E2. rewrite E1, E2. auto.
      + destruct (s_used s0 n || _); [discriminate|]. destruct (length buf <? _); injection E as <- <-; [split; auto|].
        destruct (Bg q0 n id (GWrite (unit_offset us soff) (firstn (scnt * per) buf) 0 0)) as (E1 & E2).
        unfold begins in E1, E2. rewrite E1, E2. auto.
      + destruct (s_used s0 n || _); [discriminate|]. injection E as <- <-. split; auto.
      + destruct (ch_going _) as [[[n id] [off buf pos|off data pos cached|since]]|]; try discriminate.
      + destruct (ch_going _) as [[[n id] [off buf pos|off data pos cached|since]]|]; try discriminate.
        * destruct o as [[|k]| |]; try (injection E as <- <-; now split).
          destruct (_ || _); [discriminate|]. destruct (fetch _ _ _); [|discriminate].
          destruct (_ =? _); injection E as <- <-; now split.
        * destruct o as [[|k]| |]; try (injection E as <- <-; now split).
          -- destruct (cached =? 0); [|discriminate]. injection E as <- <-; now split.
          -- destruct (negb _); [discriminate|].
             assert (F : forall x, exists t n0, (if osync && (off + pos <=? x) && (x <? off + pos + S k)
                then settle (fun e => ce_by e =? n) (s_cell s0 x) else s_cell s0 x) = [mk_cell t n0 (contents x)]).
             { intros x. destruct (osync && (off + pos <=? x) && (x <? off + pos + S k)); auto. }
             destruct (_ =? length data); injection E as <- <-; now split.
          -- destruct (cached =? 0); [|discriminate]. injection E as <- <-; now split.
        * destruct o as [[|k]| |]; try discriminate; injection E as <- <-; split; auto.
          intros x. cbn. apply St.
      + destruct (is_some _); [discriminate|]. injection E as <- <-. now split.
      + injection E as <- <-. split; auto. intros x. cbn. destruct (J x) as (t & n & ->). unfold crashed_cells.
        destruct (sv x) as [|[|i]]; cbn; eauto. }
  apply (G es (new_sdev len contents) s tr); [|exact R]. cbn. split; eauto.
Qed.

Lemma run_check : forall {A B} (o : option (A * B)) (P : A -> B -> Prop),
  match o with Some (s, tr) => P s tr | None => False end -> exists s tr, o = Some (s, tr) /\ P s tr.
Proof. intros A B [[s tr]|] P H; [eauto|contradiction]. Qed.

(** ** Requests outside the device

    "A request outside the device fails and changes nothing" does not hold (see also C49): a
    write behind the end is reported successful and makes the file longer, and with it the
    device at the next start. *)
Theorem C72_refuted_past_end :
  exists (len nsec : nat) (es : list (sevent nat)),
    open_device len = Ok nsec /\ exists s tr,
    srun 1 512 false false (new_sdev len (fun _ => 0)) es = Some (s, tr) /\
    tr = [TIssue 1 0 7 (RWrite len (repeat 9 512)); TDone 1 0 7 true []] /\
    open_device (s_len s) = Ok (S nsec).
Proof.
  exists 512, 1, [SWrite 1 0 7 1 1 (repeat 9 512); SCopy 0 512; SReturn 0 (Moved 512); SPoll 0].
  split; [reflexivity|]. apply run_check. vm_compute. split; reflexivity.
Qed.

(** ** The theorems apply *)

(** Two channels; a write torn by short transfers and an interruption, with a read of the
    other channel in between; a flush; a write that fails half way. *)
Definition sx_run : list (sevent nat) :=
  [ SWrite 1 0 5 0 1 (repeat 1 600); SCopy 0 100; SReturn 0 (Moved 100); SReturn 0 Interrupted;
    SRead 2 1 8 0 2 (repeat 77 1024); SReturn 1 (Moved 300); SCopy 0 200; SCopy 0 212; SReturn 0 (Moved 412);
    SReturn 1 (Moved 724); SPoll 1; SPoll 0;
    SFlush 3 1 9; SReturn 1 (Moved 0); SPoll 1;
    SWrite 4 0 5 1 1 (repeat 2 512); SCopy 0 10; SReturn 0 Failed; SPoll 0;
    SCrash (fun _ => 1) ].

Example C72_nonvacuous :
  open_device 1024 = Ok 2 /\ Forall (call_in_range 512 2) sx_run /\
  exists s tr, srun 1 512 false false (new_sdev 1024 (fun _ => 0)) sx_run = Some (s, tr) /\
    nth_error tr 2 = Some (TDone 2 1 8 true (map Some (repeat 1 100 ++ repeat 0 200 ++ repeat 1 212 ++ repeat 0 512))) /\
    nth_error tr 7 = Some (TDone 4 0 5 false []) /\
    cur_cell (s_cell s 0) = Some 1 /\ cur_cell (s_cell s 511) = Some 1 /\ cur_cell (s_cell s 515) = Some 0.
Proof.
  split; [reflexivity|]. split.
  - repeat constructor; vm_compute; lia.
  - apply run_check. vm_compute. repeat split.
Qed.

(** An acknowledged write that was not flushed may be lost at a power failure, unless the
    device is write-through. *)
Example C72_write_through_nonvacuous :
  let es := [ SWrite 1 0 5 0 1 (repeat 1 512); SCopy 0 512; SReturn 0 (Moved 512); SPoll 0; SCrash (fun _ => 1) ] in
  Forall (call_in_range 512 1) es /\
  (exists s tr, srun 1 512 false false (new_sdev 512 (fun _ => 0)) es = Some (s, tr) /\ cur_cell (s_cell s 3) = Some 0) /\
  (exists s tr, srun 1 512 false true (new_sdev 512 (fun _ => 0)) es = Some (s, tr) /\ cur_cell (s_cell s 3) = Some 1).
Proof.
  split; [repeat constructor; vm_compute; lia|].
  split; apply run_check; vm_compute; reflexivity.
Qed.

Example C72_reports_nonvacuous :
  exists s tr, srun 1 512 false false (new_sdev 1024 (fun _ => 0)) (firstn 10 sx_run) = Some (s, tr) /\
    issued_on 1 tr = [(2, 8)] /\ reported_on 1 tr = [] /\ busy s 1 = true /\ issued_on 0 tr = [(1, 5)].
Proof. apply run_check. vm_compute. repeat split. Qed.

Example C72_read_only_nonvacuous :
  exists s tr, srun 1 512 true false (new_sdev 512 (fun x => x))
    [SWrite 1 0 5 0 1 (repeat 1 512); SReturn 0 Failed; SPoll 0; SRead 2 0 6 0 1 (repeat 0 512); SReturn 0 (Moved 512); SPoll 0]
    = Some (s, tr) /\ nth_error tr 1 = Some (TDone 1 0 5 false []) /\
    nth_error tr 3 = Some (TDone 2 0 6 true (map Some (seq 0 512))).
Proof. apply run_check. vm_compute. split; reflexivity. Qed.

Print Assumptions C72_file_device_is_a_disk.
Print Assumptions C72_write_through.
Print Assumptions C72_reports.
Print Assumptions C72_read_only.
Print Assumptions C72_refuted_past_end.
