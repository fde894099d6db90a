(** Proofs for C74: a write-through disk is a disk whose client flushes after every
    completion, and the lazy device over a write-through base is write-through. *)
From Coq Require Import List Arith NArith Bool Lia ZifyBool ZifyNat.
Import ListNotations.
From Verif Require Import Base BaseFacts DiskSpec TraceSpec TraceFacts LazyState LazyModel LazySpec LazyInv LazyTac LazyInvGuest
  LazyInvFetch LazyInvMeta LazySim LazyReach LazyRun LazyProofs SyncSpec WtSpec.

Section Hist.
Context {A : Type}.
Implicit Types (l : list (nat * A)) (p q : nat -> bool).

Definition dbl (e : nat * A) : nat * A := (2 * fst e, snd e).

Lemma trim_trim p q l : (forall n, p n = true -> q n = true) -> trim q (trim p l) = trim q l.
Proof.
  intros H. induction l as [|e l IH]; cbn; auto. destruct (p (fst e)) eqn:E; cbn.
  - now rewrite (H _ E).
  - destruct (q (fst e)); auto. now rewrite IH.
Qed.

Lemma trim_trim' p q l : (forall n, q n = true -> p n = true) -> trim q (trim p l) = trim p l.
Proof.
  intros H. induction l as [|e l IH]; cbn; auto. destruct (p (fst e)) eqn:E; cbn.
  - now destruct (q (fst e)).
  - destruct (q (fst e)) eqn:F; [now rewrite (H _ F) in E|]. now rewrite IH.
Qed.

Lemma trim_dbl p q l : (forall n, p (2 * n) = q n) -> trim p (map dbl l) = map dbl (trim q l).
Proof.
  intros H. induction l as [|e l IH]; cbn [map trim]; auto. cbn [dbl fst]. rewrite H. destruct (q (fst e)); cbn; auto. now rewrite IH.
Qed.

Lemma crashed_dbl l i : crashed (map dbl l) i = crashed l i.
Proof.
  unfold crashed. rewrite nth_error_map. destruct (nth_error l i); cbn; auto. destruct l; auto.
Qed.

Lemma crashed_single l i : l <> [] -> exists v, crashed l i = [(0, v)].
Proof. intros H. unfold crashed. destruct (nth_error l i); [eauto|]. destruct l; [congruence|eauto]. Qed.

Lemma trim_crashed p l i : trim p (crashed l i) = crashed l i.
Proof. destruct l as [|e l]; [now destruct i|]. destruct (crashed_single (e :: l) i) as (v & ->); [discriminate|]. cbn. now destruct (p 0). Qed.

Lemma map_dbl_crashed l i : map dbl (crashed l i) = crashed l i.
Proof. destruct l as [|e l]; [now destruct i|]. destruct (crashed_single (e :: l) i) as (v & ->); [discriminate|]. reflexivity. Qed.

Lemma trim_prefix p l : exists r, l = trim p l ++ r.
Proof.
  induction l as [|e l (r & IH)]; [now exists []|]. cbn. destruct (p (fst e)); [now exists l|]. exists r. cbn. congruence.
Qed.

Lemma crashed_prefix p l i : i < length (trim p l) -> crashed l i = crashed (trim p l) i.
Proof.
  intros H. destruct (trim_prefix p l) as (r & E). unfold crashed. rewrite E at 1. rewrite nth_error_app1 by auto.
  destruct (nth_error (trim p l) i) eqn:F; auto. apply nth_error_None in F. lia.
Qed.

Lemma kept_0 p l : kept p l 0.
Proof. unfold kept. destruct l as [|e l]; auto. cbn [trim]. destruct (p (fst e)); reflexivity. Qed.
End Hist.

(** ** Flushing after every completion *)
Section Flush.
Context {V : Type}.
Variable size : nat.

Definition krel (d : disk V) (k k' : dkind V) : Prop :=
  match k, k' with
  | DRead off len got, DRead off' len' got' => off = off' /\ len = len' /\ got = got'
  | DWrite off data ap, DWrite off' data' ap' => off = off' /\ data = data' /\ ap = ap'
  | DFlush snap, DFlush snap' => (forall n, snap n = true -> d_done d n = true) /\ (forall n, snap' (2 * n) = true -> d_done d n = true)
  | _, _ => False
  end.

Definition oprel (d : disk V) (o o' : option (dop V)) : Prop :=
  match o, o' with
  | None, None => True
  | Some (mk_dop c id k), Some (mk_dop c' id' k') => c = c' /\ id = id' /\ krel d k k'
  | _, _ => False
  end.

(** [d'] is the disk of the client that flushes. *)
Record Fl (d d' : disk V) : Prop := {
  f_used : forall n, d_used d' (2 * n) = d_used d n;
  f_odd : forall n, d_used d n = false \/ d_ops d n <> None -> d_used d' (2 * n + 1) = false;
  f_fly : forall n, d_ops d n <> None -> d_done d n = false /\ d_used d n = true;
  f_doneused : forall n, d_done d n = true -> d_used d n = true;
  f_done : forall n, d_done d' (2 * n) = d_done d n;
  f_ops : forall n, oprel d (d_ops d n) (d_ops d' (2 * n));
  f_hist : forall x, d_hist d' x = map dbl (trim (d_done d) (d_hist d x))
}.

Lemma drun_app' (d : disk V) es1 : forall es2 d1 t1 d2 t2, drun size d es1 = Some (d1, t1) -> drun size d1 es2 = Some (d2, t2) ->
  drun size d (es1 ++ es2) = Some (d2, t1 ++ t2).
Proof.
  revert d. induction es1 as [|e es1 IH]; intros d es2 d1 t1 d2 t2 H1 H2; cbn in *.
  - injection H1 as <- <-. exact H2.
  - destruct (dstep size d e) as [[da ta]|]; [|discriminate]. destruct (drun size da es1) as [[db tb]|] eqn:E; [|discriminate].
    injection H1 as <- <-. rewrite (IH _ _ _ _ _ _ E H2). now rewrite app_assoc.
Qed.

Lemma upd_2 {B} (f : nat -> B) n v m : upd f (2 * n) v (2 * m) = if m =? n then v else f (2 * m).
Proof. unfold upd. destruct (Nat.eqb_spec (2 * m) (2 * n)), (Nat.eqb_spec m n); auto; lia. Qed.
Lemma upd_odd {B} (f : nat -> B) n v m : upd f (2 * n + 1) v (2 * m) = f (2 * m).
Proof. unfold upd. destruct (Nat.eqb_spec (2 * m) (2 * n + 1)); auto; lia. Qed.
Lemma upd_even {B} (f : nat -> B) n v m : upd f (2 * n) v (2 * m + 1) = f (2 * m + 1).
Proof. unfold upd. destruct (Nat.eqb_spec (2 * m + 1) (2 * n)); auto; lia. Qed.
Lemma upd_oo {B} (f : nat -> B) n v m : upd f (2 * n + 1) v (2 * m + 1) = if m =? n then v else f (2 * m + 1).
Proof. unfold upd. destruct (Nat.eqb_spec (2 * m + 1) (2 * n + 1)), (Nat.eqb_spec m n); auto; lia. Qed.
Lemma upd_1 {B} (f : nat -> B) n v m : upd f n v m = if m =? n then v else f m.
Proof. reflexivity. Qed.

(** The flush that is added after completion [n]. *)
Lemma added_flush (d : disk V) n c id : d_used d n = false ->
  drun size d [DIssue n c id RFlush; DDone n true] =
  Some (mk_disk (upd (upd (d_ops d) n (Some (mk_dop c id (DFlush (d_done d))))) n None) (upd (d_used d) n true)
          (fun x => trim (d_done d) (d_hist d x)) (d_done d),
        [TIssue n c id RFlush; TDone n c id true []]).
Proof.
  intros H. cbn [drun dstep]. rewrite H. unfold dissue. cbn [d_ops d_used d_hist d_done start_kind]. rewrite upd_1, Nat.eqb_refl. reflexivity.
Qed.

Lemma oprel_mono d d1 o o' : (forall n, d_done d n = true -> d_done d1 n = true) -> oprel d o o' -> oprel d1 o o'.
Proof.
  intros H. destruct o as [[c id k]|], o' as [[c' id' k']|]; cbn; auto. intros (A & B & K). repeat split; auto.
  destruct k, k'; cbn in *; auto. destruct K; split; auto.
Qed.

Lemma fl_step d d' e d1 t : Fl d d' -> (forall sv, e <> DCrash sv) -> dstep size d e = Some (d1, t) ->
  exists es' d1', drun size d' es' = Some (d1', flushed_after_each t) /\ Fl d1 d1'.
Proof.
  intros F NC H. destruct e as [n c id r|n i|n i|n ok|sv]; [| | | |destruct (NC sv eq_refl)].
  - cbn [dstep] in H. destruct (d_used d n) eqn:U; [discriminate|]. injection H as <- <-.
    exists [DIssue (2 * n) c id r]. eexists. split.
    { cbn [drun dstep]. rewrite (f_used _ _ F), U. reflexivity. }
    assert (Do : d_done d n = false). { destruct (d_done d n) eqn:E; auto. apply (f_doneused _ _ F) in E. congruence. }
    constructor; unfold dissue; cbn [d_ops d_used d_hist d_done].
    + intros m. rewrite upd_2, upd_1. destruct (m =? n); auto. apply F.
    + intros m. rewrite upd_even, !upd_1. destruct (Nat.eqb_spec m n) as [->|N]; [|apply F].
      intros _. apply (f_odd _ _ F). auto.
    + intros m. rewrite !upd_1. destruct (Nat.eqb_spec m n) as [->|N]; auto. apply F.
    + intros m. rewrite upd_1. destruct (m =? n); auto. apply F.
    + apply F.
    + intros m. rewrite upd_2, upd_1. destruct (Nat.eqb_spec m n) as [->|N].
      * cbn [oprel]. repeat split; auto. destruct r; cbn [krel start_kind d_done]; auto. split; auto. intros k. now rewrite (f_done _ _ F).
      * eapply oprel_mono; [|apply F]. auto.
    + apply F.
  - cbn [dstep] in H. destruct (d_ops d n) as [[c id k]|] eqn:O; [|discriminate]. destruct k as [|off data ap|]; try discriminate.
    destruct (nth_error data i) as [v|] eqn:Ei; [|discriminate]. destruct ((off + i <? size) && negb (ap i)) eqn:G; [|discriminate].
    injection H as <- <-. pose proof (f_ops _ _ F n) as R. rewrite O in R. cbn [oprel] in R.
    destruct (d_ops d' (2 * n)) as [[c' id' k']|] eqn:O'; [|contradiction]. destruct R as (<- & <- & R). destruct k'; try contradiction. destruct R as (<- & <- & <-).
    exists [DApply (2 * n) i]. eexists. split.
    { cbn [drun dstep]. rewrite O', Ei, G. reflexivity. }
    assert (Fn : d_ops d n <> None) by congruence. destruct (f_fly _ _ F n Fn) as (Do & Us).
    constructor; cbn [d_ops d_used d_hist d_done]; try apply F.
    + intros m. rewrite upd_1. destruct (Nat.eqb_spec m n) as [->|N]; [|apply F]. intros _. apply (f_odd _ _ F). auto.
    + intros m. rewrite upd_1. destruct (Nat.eqb_spec m n) as [->|N]; [auto|apply F].
    + intros m. rewrite upd_2, upd_1. destruct (Nat.eqb_spec m n) as [->|N]; [cbn [oprel krel]; auto|apply F].
    + intros x. rewrite !upd_1. destruct (Nat.eqb_spec x (off + i)) as [->|N]; [|apply F].
      cbn [trim fst]. rewrite Do. cbn [map]. now rewrite (f_hist _ _ F).
  - cbn [dstep] in H. destruct (d_ops d n) as [[c id k]|] eqn:O; [|discriminate]. destruct k as [off len got| |]; try discriminate.
    destruct ((off + i <? size) && (i <? len)) eqn:G; [|discriminate].
    injection H as <- <-. pose proof (f_ops _ _ F n) as R. rewrite O in R. cbn [oprel] in R.
    destruct (d_ops d' (2 * n)) as [[c' id' k']|] eqn:O'; [|contradiction]. destruct R as (<- & <- & R). destruct k'; try contradiction. destruct R as (<- & <- & <-).
    exists [DSample (2 * n) i]. eexists. split.
    { cbn [drun dstep]. rewrite O', G. reflexivity. }
    assert (Fn : d_ops d n <> None) by congruence. destruct (f_fly _ _ F n Fn) as (Do & Us).
    constructor; unfold set_kind; cbn [d_ops d_used d_hist d_done d_ch d_id]; try apply F.
    + intros m. rewrite upd_1. destruct (Nat.eqb_spec m n) as [->|N]; [|apply F]. intros _. apply (f_odd _ _ F). auto.
    + intros m. rewrite upd_1. destruct (Nat.eqb_spec m n) as [->|N]; [auto|apply F].
    + intros m. rewrite upd_2, upd_1. destruct (Nat.eqb_spec m n) as [->|N]; [|apply F].
      cbn [oprel krel]. repeat split; auto. rewrite (f_hist _ _ F). f_equal. destruct (d_hist d (off + i)) as [|e l]; cbn; auto. now destruct (d_done d (fst e)).
  - assert (Fn : d_ops d n <> None) by (cbn [dstep] in H; destruct (d_ops d n); [discriminate|discriminate H]).
    destruct (f_fly _ _ F n Fn) as (Do & Us). pose proof (f_odd _ _ F n (or_intror Fn)) as Odd.
    cbn [dstep] in H. destruct (d_ops d n) as [[c id k]|] eqn:O; [|congruence].
    pose proof (f_ops _ _ F n) as R. rewrite O in R. cbn [oprel] in R.
    destruct (d_ops d' (2 * n)) as [[c' id' k']|] eqn:O'; [|contradiction]. destruct R as (<- & <- & R).
    (* what holds after the completion, and, if it succeeded, the flush *)
    assert (G : forall (b : bool) done1 done1' h1 h1', (b = true -> forall m, d_used d m = true -> done1 m = true -> d_done d m = true \/ m = n) ->
       (forall m, done1 m = true -> d_used d m = true) -> (forall m, d_ops d m <> None -> m <> n -> done1 m = false) ->
       (forall m, d_done d m = true -> done1 m = true) ->
       (forall m, done1' (2 * m) = done1 m) -> (forall x, h1' x = map dbl (trim done1 (h1 x))) ->
       forall u', (forall m, u' (2 * m) = d_used d m) -> (forall m, m <> n -> u' (2 * m + 1) = d_used d' (2 * m + 1)) ->
       forall o', (forall m, o' (2 * m) = if m =? n then None else d_ops d' (2 * m)) ->
       Fl (mk_disk (upd (d_ops d) n None) (d_used d) h1 done1) (mk_disk o' u' h1' done1')).
    { intros b done1 done1' h1 h1' H1 H2 H3 H4 H5 H6 u' H7 H8 o' H9. constructor; cbn [d_ops d_used d_hist d_done]; auto.
      - intros m. rewrite upd_1. destruct (Nat.eqb_spec m n) as [->|N].
        + intros [X|X]; congruence.
        + intros X. rewrite H8 by auto. apply (f_odd _ _ F). auto.
      - intros m. rewrite upd_1. destruct (Nat.eqb_spec m n) as [->|N]; [congruence|]. intros X. split; [auto|]. apply (f_fly _ _ F m X).
      - intros m. rewrite H9, upd_1. destruct (Nat.eqb_spec m n) as [->|N]; [exact Logic.I|]. eapply oprel_mono; [|apply F]. auto. }
    assert (Fl1 : forall m, d_ops d m <> None -> m <> n -> d_done d m = false) by (intros m X _; apply (f_fly _ _ F m X)).
    destruct ok.
    2:{ injection H as <- <-. exists [DDone (2 * n) false]. eexists. split.
        { cbn [drun dstep]. rewrite O'. reflexivity. }
        unfold finish. apply (G false); auto; try apply F; try discriminate.
        intros m. rewrite upd_2. reflexivity. }
    destruct k as [off len got|off data ap|snap], k' as [off' len' got'|off' data' ap'|snap']; try contradiction; cbn [krel] in R.
    + destruct R as (<- & <- & <-). destruct (in_range_all size off len _) eqn:I; [|discriminate]. injection H as <- <-.
      exists ([DDone (2 * n) true] ++ [DIssue (2 * n + 1) c id RFlush; DDone (2 * n + 1) true]). eexists. split.
      { unfold flushed_after_each. cbn [flat_map flush_after app]. 
        eapply (drun_app' d' [DDone (2 * n) true] _ _ [_]).
        - cbn [drun dstep]. rewrite O', I. reflexivity.
        - apply added_flush. exact Odd. }
      unfold finish. cbn [d_ops d_used d_hist d_done]. apply (G true); auto; try apply F.
      * intros x. rewrite (f_hist _ _ F). rewrite (trim_dbl _ (d_done d)) by apply F. now rewrite trim_trim' by auto.
      * intros m. rewrite upd_odd. apply F.
      * intros m N. rewrite upd_oo. now destruct (Nat.eqb_spec m n).
      * intros m. rewrite !upd_odd, upd_2. reflexivity.
    + destruct R as (<- & <- & <-). destruct (in_range_all size off (length data) ap) eqn:I; [|discriminate]. injection H as <- <-.
      exists ([DDone (2 * n) true] ++ [DIssue (2 * n + 1) c id RFlush; DDone (2 * n + 1) true]). eexists. split.
      { unfold flushed_after_each. cbn [flat_map flush_after app]. 
        eapply (drun_app' d' [DDone (2 * n) true] _ _ [_]).
        - cbn [drun dstep]. rewrite O', I. reflexivity.
        - apply added_flush. exact Odd. }
      cbn [d_ops d_used d_hist d_done]. apply (G true); auto; try apply F.
      * intros _ m _. rewrite upd_1. destruct (Nat.eqb_spec m n); auto.
      * intros m. rewrite upd_1. destruct (Nat.eqb_spec m n) as [->|]; auto. apply F.
      * intros m X N. rewrite upd_1. destruct (Nat.eqb_spec m n) as [->|]; [congruence|]. auto.
      * intros m X. rewrite upd_1. destruct (Nat.eqb_spec m n); auto.
      * intros m. rewrite upd_2, upd_1. destruct (Nat.eqb_spec m n); auto. apply F.
      * intros x. rewrite (f_hist _ _ F). rewrite (trim_dbl _ (upd (d_done d) n true)).
        -- rewrite trim_trim; auto. intros m X. rewrite upd_1. destruct (Nat.eqb_spec m n); auto.
        -- intros m. rewrite upd_2, upd_1. destruct (Nat.eqb_spec m n); auto. apply F.
      * intros m. rewrite upd_odd. apply F.
      * intros m N. rewrite upd_oo. now destruct (Nat.eqb_spec m n).
      * intros m. rewrite !upd_odd, upd_2. reflexivity.
    + destruct R as (R1 & R2). injection H as <- <-.
      exists ([DDone (2 * n) true] ++ [DIssue (2 * n + 1) c id RFlush; DDone (2 * n + 1) true]). eexists. split.
      { unfold flushed_after_each. cbn [flat_map flush_after app]. 
        eapply (drun_app' d' [DDone (2 * n) true] _ _ [_]).
        - cbn [drun dstep]. rewrite O'. reflexivity.
        - apply added_flush. exact Odd. }
      cbn [d_ops d_used d_hist d_done]. apply (G true); auto; try apply F.
      * intros x. rewrite (f_hist _ _ F), (trim_trim snap) by auto.
        rewrite (trim_dbl snap' (fun m => snap' (2 * m))) by auto. rewrite (trim_dbl _ (d_done d)) by apply F.
        rewrite (trim_trim (fun m => snap' (2 * m))) by auto. now rewrite trim_trim' by auto.
      * intros m. rewrite upd_odd. apply F.
      * intros m N. rewrite upd_oo. now destruct (Nat.eqb_spec m n).
      * intros m. rewrite !upd_odd, upd_2. reflexivity.
Qed.

Lemma flushed_app (t1 t2 : list (titem V)) : flushed_after_each (t1 ++ t2) = flushed_after_each t1 ++ flushed_after_each t2.
Proof. unfold flushed_after_each. now rewrite flat_map_app. Qed.

Lemma fl_run es : forall d d' d1 t, Fl d d' -> ~ In TCrash t -> drun size d es = Some (d1, t) ->
  exists es' d1', drun size d' es' = Some (d1', flushed_after_each t) /\ Fl d1 d1'.
Proof.
  induction es as [|e es IH]; intros d d' d1 t F NC H; cbn [drun] in H.
  - injection H as <- <-. exists [], d'. auto.
  - destruct (dstep size d e) as [[da ta]|] eqn:E; [|discriminate]. destruct (drun size da es) as [[db tb]|] eqn:E2; [|discriminate].
    injection H as <- <-. destruct (fl_step d d' e da ta F) as (es1 & da' & R1 & F1); auto.
    { intros sv ->. cbn [dstep] in E. injection E as <- <-. apply NC. now left. }
    destruct (IH da da' db tb F1) as (es2 & db' & R2 & F2); auto.
    { intros X. apply NC. apply in_or_app. auto. }
    exists (es1 ++ es2), db'. split; auto. rewrite flushed_app. eapply drun_app'; eauto.
Qed.

Lemma fl_crash d d' sv : Fl d d' -> (forall x, kept (d_done d) (d_hist d x) (sv x)) ->
  Fl (mk_disk (fun _ => None) (d_used d) (fun x => crashed (d_hist d x) (sv x)) (d_done d))
     (mk_disk (fun _ => None) (d_used d') (fun x => crashed (d_hist d' x) (sv x)) (d_done d')).
Proof.
  intros F K. constructor; cbn [d_ops d_used d_hist d_done]; try apply F; try congruence.
  - intros n [X|X]; [apply (f_odd _ _ F); auto|congruence].
  - intros n. exact Logic.I.
  - intros x. rewrite (f_hist _ _ F), crashed_dbl, trim_crashed, map_dbl_crashed. symmetry. apply K.
Qed.

Lemma fl_init contents : Fl (new_disk contents) (new_disk (V := V) contents).
Proof.
  constructor; unfold new_disk; cbn [d_ops d_used d_hist d_done]; auto; try congruence.
  - intros n. destruct n; auto.
  - intros n _. apply Nat.eqb_neq. lia.
  - intros n. destruct n; auto.
  - intros n. exact Logic.I.
Qed.

Lemma fl_cur d d' x : Fl d d' -> cur (d_hist d' x) = cur (d_hist d x).
Proof. intros F. rewrite (f_hist _ _ F). destruct (d_hist d x) as [|e l]; auto. cbn. now destruct (d_done d (fst e)). Qed.

(** ** Histories *)
Lemma in_flushed (t : list (titem V)) a : In a (flushed_after_each t) -> exists b, In b t /\ In a (flush_after b).
Proof. unfold flushed_after_each. rewrite in_flat_map. auto. Qed.

Lemma issue_flushed (t : list (titem V)) n q id r x v : In (TIssue n q id r) (flushed_after_each t) -> covers r x v ->
  exists m, n = 2 * m /\ In (TIssue m q id r) t.
Proof.
  intros H C. apply in_flushed in H as (b & Hb & H). destruct b as [m q' id' r'|m q' id' ok data|]; cbn [flush_after In] in H.
  - destruct H as [H|[]]. injection H as <- <- <- <-. exists m. split; [lia|auto].
  - destruct H as [H|H]; [discriminate|]. destruct ok; [|contradiction]. destruct H as [H|[H|[]]]; [|discriminate].
    injection H as <- <- <- <-. destruct C.
  - destruct H as [H|[]]. discriminate.
Qed.

Lemma crash_flushed (t : list (titem V)) : In TCrash (flushed_after_each t) <-> In TCrash t.
Proof.
  split.
  - intros H. apply in_flushed in H as (b & Hb & H). destruct b as [m q' id' r'|m q' id' ok data|]; cbn [flush_after In] in H; auto.
    + destruct H as [H|[]]. discriminate.
    + destruct H as [H|H]; [discriminate|]. destruct ok; [|contradiction]. destruct H as [H|[H|[]]]; discriminate.
  - intros H. unfold flushed_after_each. apply in_flat_map. exists TCrash. split; auto. now left.
Qed.

Lemma untouched_flushed x (t : list (titem V)) : untouched x t -> untouched x (flushed_after_each t).
Proof. intros U n q id r v H C. destruct (issue_flushed _ _ _ _ _ _ _ H C) as (m & -> & Hm). exact (U _ _ _ _ _ Hm C). Qed.

Lemma quiet_flushed x (t : list (titem V)) : quiet x t -> quiet x (flushed_after_each t).
Proof.
  intros Q n q id r v H C. destruct (issue_flushed _ _ _ _ _ _ _ H C) as (m & -> & Hm).
  destruct (Q _ _ _ _ _ Hm C) as (t1 & t2 & q' & id' & r' & -> & O).
  rewrite flushed_app. exists (flushed_after_each t1), (flushed_after_each t2), q', id', r'. split; [reflexivity|].
  destruct O as [O|(q2 & id2 & ok & data & O)]; [left; now apply crash_flushed|]. right. exists q2, id2, ok, data.
  unfold flushed_after_each. apply in_flat_map. eexists. split; [exact O|]. now left.
Qed.

Lemma flushed_reads (tr : list (titem V)) : reads_see_writes size (flushed_after_each tr) -> reads_see_completed_writes size tr.
Proof.
  intros R t0 w q id r t1 q1 id1 d1 t2 n q2 id2 off len t3 q3 id3 data t4 x i v -> C Hx Hi Hl Q U1 U2 U3 NC.
  apply (R (flushed_after_each t0) (2 * w) q id r (flushed_after_each t1) q1 id1 d1
    ([TIssue (2 * w + 1) q1 id1 RFlush; TDone (2 * w + 1) q1 id1 true []] ++ flushed_after_each t2) (2 * n) q2 id2 off len
    (flushed_after_each t3) q3 id3 data ([TIssue (2 * n + 1) q3 id3 RFlush; TDone (2 * n + 1) q3 id3 true []] ++ flushed_after_each t4) x i v);
    auto using untouched_flushed, quiet_flushed.
  - rewrite flushed_app. unfold flushed_after_each. cbn [flat_map flush_after app]. rewrite flat_map_app. cbn [flat_map flush_after app].
    rewrite flat_map_app. cbn [flat_map flush_after app]. rewrite flat_map_app. cbn [flat_map flush_after app]. reflexivity.
  - intros a b e r' v' [H|[H|H]] C'; [|discriminate|exact (untouched_flushed x t2 U2 _ _ _ _ _ H C')].
    injection H as <- <- <- <-. exact C'.
  - now rewrite crash_flushed.
  - right. exists [], (2 * w + 1), q1, id1, [], q1, id1, [], (flushed_after_each t2). cbn. auto.
Qed.
End Flush.

(** ** The lazy device *)
Section Lazy.
Context {V : Type}.
Variable c : cfg V.
Variable base : nat -> V.
Variable h : nat -> N.
Hypothesis WC : well_configured c h.

Lemma hist_kept used done done' (l l' : list (nat * V)) i : used 0 = true -> hist_rel used l l' ->
  (forall n, used n = true -> done n = done' n) -> kept done l i ->
  let j := sim_pick (trim done l) i in kept done' l' j /\ hist_rel used (crashed l i) (crashed l' j).
Proof.
  intros U0 H D K j. pose proof (hist_trim used done done' l l' H D) as T. subst j.
  assert (L : sim_pick (trim done l) i < length (trim done' l')).
  { destruct T as (u & w & w' & v & rest & -> & -> & _). unfold sim_pick. rewrite !app_length. cbn [length].
    destruct (Nat.ltb_spec i (length u + 1)); lia. }
  split; [apply crashed_prefix; auto|]. unfold kept in K. rewrite K, (crashed_prefix done' l') by auto. apply hist_crash; auto.
Qed.

Lemma wt_crash s d pb pm : Inv c (hs h) s -> Sim c s d ->
  (forall x, x < target c -> kept (bdone s) (bh s x) (pb x)) ->
  exists sv, (forall x, kept (d_done d) (d_hist d x) (sv x)) /\
    Sim c (crash c pb pm s) (mk_disk (fun _ => None) (d_used d) (fun x => crashed (d_hist d x) (sv x)) (d_done d)).
Proof.
  intros HI HS K.
  pose proof (fun st => crash_released c (hs h) pb pm s st HI) as Hr1.
  pose proof (fun st => crash_newly c (hs h) pb pm s st HI) as Hr2.
  destruct HS as [S1 S2 S3 S4 S5 S6 S7 S8 S9 S10 S11 S12].
  assert (Fn : exists sv, forall x, kept (d_done d) (d_hist d x) (sv x) /\
    (x < target c -> released (shf s (x / ssc c)) = true -> hist_rel (d_used d) (crashed (bh s x) (pb x)) (crashed (d_hist d x) (sv x)))).
  { exists (fun x => if (x <? target c) && released (shf s (x / ssc c)) then sim_pick (trim (bdone s) (bh s x)) (pb x) else 0).
    intros x. destruct ((x <? target c) && released (shf s (x / ssc c))) eqn:G.
    - apply andb_true_iff in G as (G1 & G2). apply Nat.ltb_lt in G1.
      destruct (hist_kept (d_used d) (bdone s) (d_done d) (bh s x) (d_hist d x) (pb x)) as (A & B); auto; try tauto.
      intros n Hn. now apply S2.
    - split; [apply kept_0|]. intros Hx Hr. rewrite Hr in G. apply Nat.ltb_lt in Hx. rewrite Hx in G. discriminate. }
  destruct Fn as (sv & P). exists sv. split; [apply P|].
  constructor; auto; cbn [d_ops d_used d_hist d_done]; unfold crash, boot in *; cbv zeta in *; sred; try discriminate.
  - intros x Hx Hr. destruct (released (shf s (x / ssc c))) eqn:E.
    + apply P; auto.
    + rewrite S6 by auto. destruct (Hr2 _ E Hr x (conj eq_refl Hx)) as (w & ->).
      exists [], 0, 0, (image c x), []. repeat split; [| |intros ? []].
      * unfold crashed. destruct (pb x) as [|[]]; reflexivity.
      * unfold crashed. destruct (sv x) as [|[]]; reflexivity.
  - intros x Hx Hr. destruct (released (shf s (x / ssc c))) eqn:E.
    + rewrite Hr1 in Hr by auto. discriminate.
    + rewrite S6 by auto. unfold crashed. destruct (sv x) as [|[]]; reflexivity.
  - intros q r [].
  - intros q n id [].
  - intros q. split; [constructor|]. intros n [].
Qed.

Lemma snoc_ind_step es e : reached c base h (es ++ [e]) = fst (step c (reached c base h es) e).
Proof. rewrite reached_app. cbn [run]. destruct (step c (reached c base h es) e); reflexivity. Qed.
Lemma snoc_hist_step es e : history c base h (es ++ [e]) = history c base h es ++ snd (step c (reached c base h es) e).
Proof. rewrite history_app. cbn [run]. destruct (step c (reached c base h es) e) as [s t]. cbn [snd fst]. now rewrite app_nil_r. Qed.

Lemma no_crash_step (s : state V) e : is_crash e = false -> ~ In TCrash (snd (step c s e)).
Proof.
  intros H. unfold step. destruct e; try discriminate H; destruct (panic s); cbn [snd]; try (intros []; fail).
  - intros [X|[]]. discriminate.
  - unfold take_finished. cbn [snd]. rewrite in_map_iff. intros (p & X & _). discriminate.
  - unfold op_done. destruct (ops s n) as [[o dv k]|]; [|intros []]. destruct (ok && negb _); [intros []|].
    destruct o; [intros [X|[]]; discriminate|]. destruct (wdone s); intros [].
Qed.

Lemma wt_refines es : base_write_through c base h es ->
  exists d d', Sim c (reached c base h es) d /\ Fl d d' /\
    disk_behaviour (target c) (initial_contents c base h) (flushed_after_each (history c base h es)) d'.
Proof.
  induction es as [|e es IH] using rev_ind; intros WT.
  - exists (new_disk (initial_contents c base h)), (new_disk (initial_contents c base h)).
    split; [apply sim_init|]. split; [apply fl_init|]. now exists [].
  - destruct IH as (d & d' & S & F & (evs & R)).
    { intros es1 pb pm es2 E. apply (WT es1 pb pm (es2 ++ [e])). rewrite E, <- app_assoc. reflexivity. }
    pose proof (k_inv _ _ _ (ok_reached c base h WC es)) as HI.
    rewrite snoc_ind_step, snoc_hist_step, flushed_app.
    destruct (is_crash e) eqn:Ec.
    + destruct e; try discriminate Ec. cbn [step fst snd].
      destruct (wt_crash (reached c base h es) d pickb pickm HI S) as (sv & K & S').
      { apply (WT es pickb pickm []). reflexivity. }
      eexists _, _. split; [exact S'|]. split; [apply (fl_crash d d' sv F K)|].
      exists (evs ++ [DCrash sv]). eapply drun_app'; [exact R|]. reflexivity.
    + destruct (sim_step c (hs h) (wf_of c h WC) (reached c base h es) d e HI S) as (d1 & (ev1 & R1) & S1).
      destruct (fl_run (target c) ev1 d d' d1 _ F (no_crash_step _ e Ec) R1) as (ev1' & d1' & R1' & F1).
      exists d1, d1'. split; auto. split; auto. exists (evs ++ ev1'). eapply drun_app'; eauto.
Qed.
End Lazy.
