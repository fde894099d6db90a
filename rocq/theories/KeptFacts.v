(** Runs of a disk on which, whenever the power fails, no sector falls back behind a write
    that has completed (WtSpec.v, [kept]). *)
From Coq Require Import List Arith Bool Lia ZifyBool ZifyNat.
Import ListNotations.
From Verif Require Import Base BaseFacts DiskSpec TraceSpec TraceFacts SyncSpec WtSpec WtProofs.

Section Kept.
Context {V : Type}.
Variable size : nat.
Notation disk := (disk V).
Notation drun := (@drun V size).
Notation dstep := (@dstep V size).

Definition kept_at (d : disk) (sv : nat -> nat) : Prop := forall x, kept (d_done d) (d_hist d x) (sv x).

Definition safe1 (d : disk) (e : devent V) : Prop := match e with DCrash sv => kept_at d sv | _ => True end.

Fixpoint safe (d : disk) (es : list (devent V)) : Prop :=
  match es with
  | [] => True
  | e :: es => safe1 d e /\ match dstep d e with Some (d1, _) => safe d1 es | None => True end
  end.

(** A run from [d] to [d1] with history [t]. *)
Definition kept_run (d : disk) (t : list (titem V)) (d1 : disk) : Prop :=
  exists es, drun d es = Some (d1, t) /\ safe d es.

Lemma kept_nil d : kept_run d [] d.
Proof. now exists []. Qed.

Lemma kept_app d t1 d1 t2 d2 : kept_run d t1 d1 -> kept_run d1 t2 d2 -> kept_run d (t1 ++ t2) d2.
Proof.
  intros (e1 & R1 & S1) (e2 & R2 & S2). exists (e1 ++ e2). split; [eapply drun_app2; eauto|].
  revert d t1 R1 S1. induction e1 as [|e e1 IH]; intros d t1 R1 S1; cbn [DiskSpec.drun app safe] in *.
  - now injection R1 as <- <-.
  - destruct (dstep d e) as [[da ta]|]; [|discriminate]. destruct (drun da e1) as [[db tb]|] eqn:E; [|discriminate].
    injection R1 as <- <-. split; [tauto|]. eapply IH; [exact E|tauto].
Qed.

Lemma kept_quiet d es d1 t : drun d es = Some (d1, t) -> ~ In TCrash t -> kept_run d t d1.
Proof.
  intros R N. exists es. split; auto. revert d d1 t R N. induction es as [|e es IH]; intros d d1 t R N; cbn [DiskSpec.drun safe] in *; auto.
  destruct (dstep d e) as [[da ta]|] eqn:E; [|discriminate]. destruct (drun da es) as [[db tb]|] eqn:E2; [|discriminate].
  injection R as <- <-. split.
  - destruct e; cbn; auto. cbn in E. injection E as <- <-. exfalso. apply N. now left.
  - eapply IH; [exact E2|]. intros X. apply N. apply in_or_app. auto.
Qed.

Lemma kept_drun d t d1 : kept_run d t d1 -> exists es, drun d es = Some (d1, t).
Proof. intros (es & R & _). eauto. Qed.

Definition after_crash (d : disk) (sv : nat -> nat) : disk :=
  mk_disk (fun _ => None) (d_used d) (fun x => crashed (d_hist d x) (sv x)) (d_done d).

Lemma kept_crash d sv : kept_at d sv -> kept_run d [TCrash] (after_crash d sv).
Proof. intros K. exists [DCrash sv]. split; [reflexivity|]. cbn. auto. Qed.

Lemma kept_cut d t1 t2 d2 : kept_run d (t1 ++ t2) d2 -> exists d1, kept_run d t1 d1 /\ kept_run d1 t2 d2.
Proof.
  intros (es & R & S). revert d t1 R S. induction es as [|e es IH]; intros d t1 R S; cbn [DiskSpec.drun safe] in *.
  - injection R as <- E. symmetry in E. apply app_eq_nil in E. destruct E as [-> ->]. exists d. split; apply kept_nil.
  - destruct (dstep d e) as [[da ta]|] eqn:E; [|discriminate]. destruct (drun da es) as [[db tb]|] eqn:E2; [|discriminate].
    injection R as <- R. destruct S as [S1 S2].
    destruct t1 as [|i t1].
    { exists d. split; [apply kept_nil|]. exists (e :: es). cbn [DiskSpec.drun safe]. rewrite E, E2. cbn in R. subst. auto. }
    assert (One : forall t, ta = t -> kept_run d t da).
    { intros t <-. exists [e]. cbn [DiskSpec.drun safe]. rewrite E, app_nil_r. auto. }
    destruct (dstep_cases _ _ _ _ _ E) as [->|(j & ->)]; cbn [app] in R.
    + subst tb. destruct (IH da (i :: t1) E2 S2) as (d3 & A & B). exists d3. split; auto.
      exact (kept_app _ [] _ _ _ (One _ eq_refl) A).
    + injection R as <- ->. destruct (IH da t1 E2 S2) as (d3 & A & B). exists d3. split; auto.
      exact (kept_app _ [j] _ _ _ (One _ eq_refl) A).
Qed.

Lemma crash_event d e d1 : dstep d e = Some (d1, [TCrash]) -> exists sv, e = DCrash sv.
Proof.
  unfold DiskSpec.dstep. destruct e as [n' q' id' r'|n' i|n' i|n' ok|p].
  - destruct (d_used d n'); discriminate.
  - destruct (d_ops d n') as [[? ? [| |]]|]; try discriminate. destruct (nth_error _ _); [|discriminate].
    destruct (_ && _); discriminate.
  - destruct (d_ops d n') as [[? ? [| |]]|]; try discriminate. destruct (_ && _); discriminate.
  - destruct (d_ops d n') as [[? ? k]|]; [|discriminate]. destruct ok; [|discriminate].
    destruct k; repeat (destruct (in_range_all _ _ _ _)); discriminate.
  - eauto.
Qed.

(** A crash: steps nobody sees, the crash, steps nobody sees. *)
Lemma kept_at_crash d d3 : kept_run d [TCrash] d3 -> exists e0 e2 d1 sv,
  drun d e0 = Some (d1, []) /\ kept_at d1 sv /\ drun (after_crash d1 sv) e2 = Some (d3, []).
Proof.
  intros (es & R & S). revert d R S. induction es as [|e es IH]; intros d R S; cbn [DiskSpec.drun safe] in *; [discriminate|].
  destruct (dstep d e) as [[da ta]|] eqn:E; [|discriminate]. destruct (drun da es) as [[db tb]|] eqn:E2; [|discriminate].
  injection R as <- R. destruct S as [S1 S2]. destruct (dstep_cases _ _ _ _ _ E) as [->|(j & ->)]; cbn [app] in R.
  - subst tb. destruct (IH da E2 S2) as (e0 & e2 & d1 & sv & A & B & C). exists (e :: e0), e2, d1, sv.
    split; auto. cbn [DiskSpec.drun]. rewrite E, A. reflexivity.
  - injection R as -> ->. destruct (crash_event _ _ _ E) as (sv & ->). exists [], es, d, sv. split; [reflexivity|]. split; [exact S1|].
    cbn in E. injection E as <-. exact E2.
Qed.

(** Such a run is one of the client that flushes after every completion. *)
Lemma kept_flushed d d' t d1 : Fl d d' -> kept_run d t d1 ->
  exists es' d1', drun d' es' = Some (d1', flushed_after_each t) /\ Fl d1 d1'.
Proof.
  intros F (es & R & S). revert d d' t F R S. induction es as [|e es IH]; intros d d' t F R S; cbn [DiskSpec.drun safe] in *.
  - injection R as <- <-. exists [], d'. auto.
  - destruct (dstep d e) as [[da ta]|] eqn:E; [|discriminate]. destruct (drun da es) as [[db tb]|] eqn:E2; [|discriminate].
    injection R as <- <-. destruct S as [S1 S2].
    assert (H : exists es1 da', drun d' es1 = Some (da', flushed_after_each ta) /\ Fl da da').
    { assert (C : (exists sv, e = DCrash sv) \/ forall sv, e <> DCrash sv).
      { destruct e; eauto; right; intros; discriminate. }
      destruct C as [(sv & ->)|C]; [|eapply fl_step; eauto].
      cbn in E. injection E as <- <-. exists [DCrash sv], (after_crash d' sv). split; [reflexivity|].
      now apply fl_crash. }
    destruct H as (es1 & da' & R1 & F1). destruct (IH _ _ _ F1 E2 S2) as (es2 & db' & R2 & F2).
    exists (es1 ++ es2), db'. split; auto. rewrite flushed_app. eapply drun_app2; eauto.
Qed.

Lemma kept_behaviour contents t d : kept_run (new_disk contents) t d ->
  exists d', disk_behaviour size contents (flushed_after_each t) d' /\ forall x, cur (d_hist d' x) = cur (d_hist d x).
Proof.
  intros K. destruct (kept_flushed _ _ _ _ (fl_init contents) K) as (es & d' & R & F).
  exists d'. split; [now exists es|]. intros x. now apply fl_cur.
Qed.
End Kept.
