(** Every history of an ordinary disk satisfies the predicates of TraceSpec.v. *)
From Coq Require Import List Arith Bool Lia ZifyBool ZifyNat.
Import ListNotations.
From Verif Require Import Base BaseFacts DiskSpec TraceSpec LazyTac LazyInvFetch.

Section Facts.
Context {V : Type}.
Variable size : nat.
Notation disk := (disk V).
Notation drun := (@drun V size).
Notation dstep := (@dstep V size).

(** ** Runs *)

Lemma drun_snoc es e : forall d, drun d (es ++ [e]) =
  match drun d es with
  | Some (d1, t1) => match dstep d1 e with Some (d2, t2) => Some (d2, t1 ++ t2) | None => None end
  | None => None
  end.
Proof.
  induction es as [|a es IH]; intros d; cbn [app DiskSpec.drun].
  - destruct (dstep d e) as [[d2 t2]|]; auto. rewrite app_nil_r. auto.
  - destruct (dstep d a) as [[d1 t1]|]; auto. rewrite IH.
    destruct (drun d1 es) as [[d2 t2]|]; auto. destruct (dstep d2 e) as [[d3 t3]|]; auto. now rewrite app_assoc.
Qed.

(** Induction over runs, with the history so far. *)
Lemma run_ind (P : disk -> list (titem V) -> Prop) d0 :
  P d0 [] -> (forall d t e d' t', P d t -> dstep d e = Some (d', t') -> P d' (t ++ t')) ->
  forall es d t, drun d0 es = Some (d, t) -> P d t.
Proof.
  intros H0 Hs es. induction es as [|e es IH] using rev_ind; intros d t H.
  - cbn in H. injection H as <- <-. auto.
  - rewrite drun_snoc in H. destruct (drun d0 es) as [[d1 t1]|]; [|discriminate].
    destruct (dstep d1 e) as [[d2 t2]|] eqn:E; [|discriminate]. injection H as <- <-. eapply Hs; eauto.
Qed.

(** A step emits at most one item. *)
Lemma dstep_cases d e d' t : dstep d e = Some (d', t) -> t = [] \/ exists i, t = [i].
Proof.
  unfold DiskSpec.dstep. destruct e as [n q id r|n i|n i|n ok|p].
  - destruct (d_used d n); [discriminate|]. intros H. injection H as <- <-. eauto.
  - destruct (d_ops d n) as [[q id [| |]]|]; try discriminate. destruct (nth_error _ _); [|discriminate].
    destruct (_ && _); [|discriminate]. intros H. injection H as <- <-. eauto.
  - destruct (d_ops d n) as [[q id [| |]]|]; try discriminate.
    destruct (_ && _); [|discriminate]. intros H. injection H as <- <-. eauto.
  - destruct (d_ops d n) as [[q id k]|]; [|discriminate]. destruct ok.
    + destruct k; repeat (destruct (in_range_all _ _ _ _)); try discriminate; intros H; injection H as <- <-; eauto.
    + intros H. injection H as <- <-. eauto.
  - intros H. injection H as <- <-. eauto.
Qed.

(** A run can be cut where its history is cut, before each item. *)
Lemma drun_cut d0 es d t1 t2 : drun d0 es = Some (d, t1 ++ t2) ->
  exists e1 e2 d1, drun d0 e1 = Some (d1, t1) /\ drun d1 e2 = Some (d, t2).
Proof.
  revert d0 t1. induction es as [|e es IH]; intros d0 t1 H; cbn [DiskSpec.drun] in H.
  - injection H as <- H. symmetry in H. apply app_eq_nil in H. destruct H as [-> ->].
    exists [], [], d0. auto.
  - destruct (dstep d0 e) as [[d1 ta]|] eqn:E; [|discriminate].
    destruct (drun d1 es) as [[d2 tb]|] eqn:E2; [|discriminate]. injection H as <- H.
    destruct t1 as [|i t1].
    { exists [], (e :: es), d0. split; auto. cbn [DiskSpec.drun]. rewrite E, E2. cbn in H. now rewrite H. }
    destruct (dstep_cases _ _ _ _ E) as [->|(j & ->)]; cbn [app] in H.
    + subst tb. destruct (IH d1 (i :: t1) E2) as (e1 & e2 & d3 & A & B). exists (e :: e1), e2, d3. split; auto.
      cbn [DiskSpec.drun]. rewrite E, A. auto.
    + injection H as <- ->. destruct (IH d1 t1 E2) as (e1 & e2 & d3 & A & B). exists (e :: e1), e2, d3. split; auto.
      cbn [DiskSpec.drun]. rewrite E, A. auto.
Qed.

(** The step that emits an item. *)
Lemma drun_item d0 es d i t2 : drun d0 es = Some (d, i :: t2) ->
  exists e0 e e2 d1 d2, drun d0 e0 = Some (d1, []) /\ dstep d1 e = Some (d2, [i]) /\ drun d2 e2 = Some (d, t2).
Proof.
  revert d0. induction es as [|e es IH]; intros d0 H; cbn [DiskSpec.drun] in H; [discriminate|].
  destruct (dstep d0 e) as [[d1 ta]|] eqn:E; [|discriminate].
  destruct (drun d1 es) as [[d2 tb]|] eqn:E2; [|discriminate]. injection H as <- H.
  destruct (dstep_cases _ _ _ _ E) as [->|(j & ->)]; cbn [app] in H.
  - subst tb. destruct (IH d1 E2) as (e0 & e1 & e2 & d3 & d4 & A & B & C).
    exists (e :: e0), e1, e2, d3, d4. split; auto. cbn [DiskSpec.drun]. rewrite E, A. auto.
  - injection H as <- ->. exists [], e, es, d0, d1. auto.
Qed.

(** What kind of step emits which item. *)
Lemma item_issue d e d' n q id r : dstep d e = Some (d', [TIssue n q id r]) ->
  d_used d n = false /\ d' = dissue n q id r d.
Proof.
  unfold DiskSpec.dstep. destruct e as [n' q' id' r'|n' i|n' i|n' ok|p].
  - destruct (d_used d n') eqn:E; [discriminate|]. intros H. injection H as <- <- <- <- <-. auto.
  - destruct (d_ops d n') as [[? ? [| |]]|]; try discriminate. destruct (nth_error _ _); [|discriminate].
    destruct (_ && _); discriminate.
  - destruct (d_ops d n') as [[? ? [| |]]|]; try discriminate. destruct (_ && _); discriminate.
  - destruct (d_ops d n') as [[? ? k]|]; [|discriminate]. destruct ok; [|discriminate].
    destruct k; repeat (destruct (in_range_all _ _ _ _)); discriminate.
  - discriminate.
Qed.

Lemma item_done d e d' n q id ok data : dstep d e = Some (d', [TDone n q id ok data]) ->
  exists k, d_ops d n = Some (mk_dop q id k) /\ dstep d (DDone n ok) = Some (d', [TDone n q id ok data]).
Proof.
  intros H. assert (Hn : e = DDone n ok); [|subst; split with (match d_ops d n with Some o => d_kind o | None => DFlush (fun _ => false) end)].
  - revert H. unfold DiskSpec.dstep. destruct e as [n' q' id' r'|n' i|n' i|n' ok'|p].
    + destruct (d_used d n'); discriminate.
    + destruct (d_ops d n') as [[? ? [| |]]|]; try discriminate. destruct (nth_error _ _); [|discriminate].
      destruct (_ && _); discriminate.
    + destruct (d_ops d n') as [[? ? [| |]]|]; try discriminate. destruct (_ && _); discriminate.
    + destruct (d_ops d n') as [[? ? k]|]; [|discriminate]. destruct ok'; [|congruence].
      destruct k; repeat (destruct (in_range_all _ _ _ _)); congruence.
    + discriminate.
  - split; auto. revert H. cbn [DiskSpec.dstep]. destruct (d_ops d n) as [[q' id' k]|]; [|discriminate]. destruct ok.
    + destruct k; repeat (destruct (in_range_all _ _ _ _)); try discriminate; intros H; injection H; intros; subst; auto.
    + intros H; injection H; intros; subst; auto.
Qed.

Lemma item_crash d e d' : dstep d e = Some (d', [TCrash]) ->
  exists p, d' = mk_disk (fun _ => None) (d_used d) (fun s => crashed (d_hist d s) (p s)) (d_done d).
Proof.
  unfold DiskSpec.dstep. destruct e as [n' q' id' r'|n' i|n' i|n' ok|p].
  - destruct (d_used d n'); discriminate.
  - destruct (d_ops d n') as [[? ? [| |]]|]; try discriminate. destruct (nth_error _ _); [|discriminate].
    destruct (_ && _); discriminate.
  - destruct (d_ops d n') as [[? ? [| |]]|]; try discriminate. destruct (_ && _); discriminate.
  - destruct (d_ops d n') as [[? ? k]|]; [|discriminate]. destruct ok; [|discriminate].
    destruct k; repeat (destruct (in_range_all _ _ _ _)); discriminate.
  - intros H. injection H as <-. eauto.
Qed.

(** Case analysis of a step, by its effect. *)
Lemma dstep_inv (d : disk) e d' t : dstep d e = Some (d', t) ->
  (exists n q id r, d_used d n = false /\ d' = dissue n q id r d /\ t = [TIssue n q id r]) \/
  (exists n q id off data ap i v, d_ops d n = Some (mk_dop q id (DWrite off data ap)) /\ nth_error data i = Some v /\
     off + i < size /\ ap i = false /\ t = [] /\
     d' = mk_disk (upd (d_ops d) n (Some (mk_dop q id (DWrite off data (upd ap i true))))) (d_used d)
                  (upd (d_hist d) (off + i) ((n, v) :: d_hist d (off + i))) (d_done d)) \/
  (exists n q id off len got i, d_ops d n = Some (mk_dop q id (DRead off len got)) /\ off + i < size /\ i < len /\ t = [] /\
     d' = mk_disk (upd (d_ops d) n (Some (mk_dop q id (DRead off len (upd got i (cur (d_hist d (off + i))))))))
                  (d_used d) (d_hist d) (d_done d)) \/
  (exists n q id k, d_ops d n = Some (mk_dop q id k) /\ d' = finish n d /\ t = [TDone n q id false []]) \/
  (exists n q id off len got, d_ops d n = Some (mk_dop q id (DRead off len got)) /\
     (forall i, i < len -> off + i < size -> is_some (got i) = true) /\
     d' = finish n d /\ t = [TDone n q id true (read_data len got)]) \/
  (exists n q id off data ap, d_ops d n = Some (mk_dop q id (DWrite off data ap)) /\
     (forall i, i < length data -> off + i < size -> ap i = true) /\
     d' = mk_disk (upd (d_ops d) n None) (d_used d) (d_hist d) (upd (d_done d) n true) /\ t = [TDone n q id true []]) \/
  (exists n q id snap, d_ops d n = Some (mk_dop q id (DFlush snap)) /\
     d' = mk_disk (upd (d_ops d) n None) (d_used d) (fun s => trim snap (d_hist d s)) (d_done d) /\ t = [TDone n q id true []]) \/
  (exists p, d' = mk_disk (fun _ => None) (d_used d) (fun s => crashed (d_hist d s) (p s)) (d_done d) /\ t = [TCrash]).
Proof.
  unfold DiskSpec.dstep. destruct e as [n q id r|n i|n i|n ok|p].
  - destruct (d_used d n) eqn:E; [discriminate|]. intros H. injection H as <- <-. left. eauto 10.
  - destruct (d_ops d n) as [[q id [|off data ap|]]|] eqn:E; try discriminate. destruct (nth_error data i) eqn:En; [|discriminate].
    destruct (_ && _) eqn:C; [|discriminate]. intros H. injection H as <- <-. right. left.
    apply andb_true_iff in C. destruct C as [C1 C2]. exists n, q, id, off, data, ap, i, v. repeat split; auto; try lia.
    now apply negb_true_iff in C2.
  - destruct (d_ops d n) as [[q id [off len got| |]]|] eqn:E; try discriminate.
    destruct (_ && _) eqn:C; [|discriminate]. intros H. injection H as <- <-. right. right. left.
    apply andb_true_iff in C. destruct C as [C1 C2]. exists n, q, id, off, len, got, i. repeat split; auto; lia.
  - destruct (d_ops d n) as [[q id k]|] eqn:E; [|discriminate]. destruct ok.
    + destruct k as [off len got|off data ap|snap].
      * destruct (in_range_all _ _ _ _) eqn:C; [|discriminate]. intros H. injection H as <- <-.
        do 4 right. left. exists n, q, id, off, len, got. repeat split; auto. intros i A B.
        apply (in_range_all_spec _ _ _ _ C); auto.
      * destruct (in_range_all _ _ _ _) eqn:C; [|discriminate]. intros H. injection H as <- <-.
        do 5 right. left. exists n, q, id, off, data, ap. repeat split; auto. intros i A B.
        apply (in_range_all_spec _ _ _ _ C); auto.
      * intros H. injection H as <- <-. do 6 right. left. eauto 10.
    + intros H. injection H as <- <-. do 3 right. left. eauto 10.
  - intros H. injection H as <- <-. do 7 right. eauto.
Qed.

Ltac dcases H := apply dstep_inv in H;
  destruct H as [(n & q & id & r & Hun & -> & ->)
   |[(n & q & id & off & data & ap & ii & vv & Hop & Hnth & Hsz & Hap & -> & ->)
   |[(n & q & id & off & len & got & ii & Hop & Hsz & Hlen & -> & ->)
   |[(n & q & id & k & Hop & -> & ->)
   |[(n & q & id & off & len & got & Hop & Hall & -> & ->)
   |[(n & q & id & off & data & ap & Hop & Hall & -> & ->)
   |[(n & q & id & snap & Hop & -> & ->)
   |(p & -> & ->)]]]]]]]; cbn [d_ops d_used d_hist d_done finish dissue] in *.

(** ** Operations in flight were issued and are neither done nor lost *)

Definition kind_of (r : req V) (k : dkind V) : Prop :=
  match r, k with
  | RRead off len, DRead off' len' _ => off = off' /\ len = len'
  | RWrite off data, DWrite off' data' _ => off = off' /\ data = data'
  | RFlush, DFlush _ => True
  | _, _ => False
  end.

Definition Issued (d : disk) (t : list (titem V)) : Prop :=
  (forall n q id k, d_ops d n = Some (mk_dop q id k) -> exists t0 r t3, t = t0 ++ TIssue n q id r :: t3 /\
     kind_of r k /\ ~ In TCrash t3 /\ forall q' id' ok' data', ~ In (TDone n q' id' ok' data') t3) /\
  (forall n q id r, In (TIssue n q id r) t -> d_used d n = true) /\
  (forall n o, d_ops d n = Some o -> d_used d n = true).

Lemma start_kind_of d r : kind_of r (start_kind d r).
Proof. destruct r; cbn; auto. Qed.

Lemma issued_keep t i n q id k :
  (exists t0 r t3, t = t0 ++ TIssue n q id r :: t3 /\
     kind_of r k /\ ~ In TCrash t3 /\ forall q' id' ok' data', ~ In (TDone n q' id' ok' data') t3) ->
  i <> TCrash -> (forall q' id' ok' data', i <> TDone n q' id' ok' data') ->
  exists t0 r t3, t ++ [i] = t0 ++ TIssue n q id r :: t3 /\
     kind_of r k /\ ~ In TCrash t3 /\ forall q' id' ok' data', ~ In (TDone n q' id' ok' data') t3.
Proof.
  intros (t0 & r & t3 & -> & A & B & C) Hi Hd. exists t0, r, (t3 ++ [i]). repeat split; auto.
  - now rewrite <- app_assoc.
  - rewrite in_app_iff. cbn. intuition congruence.
  - intros q' id' ok' data'. rewrite in_app_iff. cbn. intros [X|[X|[]]]; [eapply C; eauto|eapply Hd; eauto].
Qed.

Lemma issued_step d t e d' t' : Issued d t -> dstep d e = Some (d', t') -> Issued d' (t ++ t').
Proof.
  intros (A & B & C) H. dcases H; rewrite ?app_nil_r; unfold Issued in *; cbn [d_ops d_used dissue finish].
  - split; [|split].
    + intros m q' id' k Hm. unfold upd in Hm. destruct (Nat.eqb_spec m n).
      * subst. injection Hm as <- <- <-. exists t, r, []. repeat split; auto. apply start_kind_of.
      * apply issued_keep; auto; discriminate.
    + intros m q' id' r' Hm. rewrite in_app_iff in Hm. unfold upd. destruct (Nat.eqb_spec m n); auto.
      destruct Hm as [Hm|[Hm|[]]]; [eauto|congruence].
    + intros m o Hm. unfold upd in *. destruct (Nat.eqb_spec m n); eauto.
  - split; [|split]; auto.
    + intros m q' id' k Hm. unfold upd in Hm. destruct (Nat.eqb_spec m n); [|eauto].
      subst. injection Hm as <- <- <-. exact (A _ _ _ _ Hop).
    + intros m o Hm. unfold upd in *. destruct (Nat.eqb_spec m n); subst; eauto.
  - split; [|split]; auto.
    + intros m q' id' k Hm. unfold upd in Hm. destruct (Nat.eqb_spec m n); [|eauto].
      subst. injection Hm as <- <- <-. exact (A _ _ _ _ Hop).
    + intros m o Hm. unfold upd in *. destruct (Nat.eqb_spec m n); subst; eauto.
  - split; [|split].
    + intros m q' id' k' Hm. unfold upd in Hm. destruct (Nat.eqb_spec m n); [discriminate|].
      apply issued_keep; auto; congruence.
    + intros m q' id' r' Hm. rewrite in_app_iff in Hm. destruct Hm as [Hm|[Hm|[]]]; [eauto|congruence].
    + intros m o Hm. unfold upd in *. destruct (Nat.eqb_spec m n); [discriminate|]. eauto.
  - split; [|split].
    + intros m q' id' k' Hm. unfold upd in Hm. destruct (Nat.eqb_spec m n); [discriminate|].
      apply issued_keep; auto; congruence.
    + intros m q' id' r' Hm. rewrite in_app_iff in Hm. destruct Hm as [Hm|[Hm|[]]]; [eauto|congruence].
    + intros m o Hm. unfold upd in *. destruct (Nat.eqb_spec m n); [discriminate|]. eauto.
  - split; [|split].
    + intros m q' id' k' Hm. unfold upd in Hm. destruct (Nat.eqb_spec m n); [discriminate|].
      apply issued_keep; auto; congruence.
    + intros m q' id' r' Hm. rewrite in_app_iff in Hm. destruct Hm as [Hm|[Hm|[]]]; [eauto|congruence].
    + intros m o Hm. unfold upd in *. destruct (Nat.eqb_spec m n); [discriminate|]. eauto.
  - split; [|split].
    + intros m q' id' k' Hm. unfold upd in Hm. destruct (Nat.eqb_spec m n); [discriminate|].
      apply issued_keep; auto; congruence.
    + intros m q' id' r' Hm. rewrite in_app_iff in Hm. destruct Hm as [Hm|[Hm|[]]]; [eauto|congruence].
    + intros m o Hm. unfold upd in *. destruct (Nat.eqb_spec m n); [discriminate|]. eauto.
  - split; [|split]; try discriminate.
    intros m q' id' r' Hm. rewrite in_app_iff in Hm. destruct Hm as [Hm|[Hm|[]]]; [eauto|congruence].
Qed.

Lemma issued_run contents es d t : drun (new_disk contents) es = Some (d, t) -> Issued d t.
Proof.
  intros H. revert es d t H. apply run_ind.
  - repeat split; try discriminate. intros n q id r [].
  - apply issued_step.
Qed.

Theorem disk_completions_match (contents : nat -> V) tr d : disk_behaviour size contents tr d -> completions_match tr.
Proof.
  intros (es & H). split.
  - intros t1 n q id ok data t2 ->. destruct (drun_cut _ _ _ _ _ H) as (e1 & e2 & d1 & A & B).
    destruct (drun_item _ _ _ _ _ B) as (e3 & e & e4 & d2 & d3 & C & D & E).
    assert (Hr : drun (new_disk contents) (e1 ++ e3) = Some (d2, t1)).
    { revert A C. generalize (new_disk contents). clear. intros d0. revert t1 d0. induction e1 as [|a e1 IH]; intros t1 d0 A C.
      - cbn in A. injection A as <- <-. exact C.
      - cbn [app DiskSpec.drun] in *. destruct (dstep d0 a) as [[dd tt]|]; [|discriminate].
        destruct (drun dd e1) as [[dd2 tt2]|] eqn:X; [|discriminate]. injection A as <- <-.
        now rewrite (IH _ _ X C). }
    apply issued_run in Hr. apply item_done in D. destruct D as (k & Hk & _).
    destruct Hr as (X & _). destruct (X _ _ _ _ Hk) as (t0 & r & t3 & -> & _ & Y & Z). eauto 10.
  - intros t1 n q id r t2 -> q' id' r' Hin. destruct (drun_cut _ _ _ _ _ H) as (e1 & e2 & d1 & A & B).
    destruct (drun_item _ _ _ _ _ B) as (e3 & e & e4 & d2 & d3 & C & D & E).
    assert (Hr : Issued d2 t1).
    { apply issued_run in A. rewrite <- (app_nil_r t1). revert e3 d2 t1 A C D E Hin H. clear. intros e3 d2 t1 A C _ _ _ _.
      assert (Y : forall es d t, drun d1 es = Some (d, t) -> Issued d (t1 ++ t)).
      { apply run_ind; [now rewrite app_nil_r|]. intros d' t e' d'' t' HI Hs. rewrite app_assoc. eapply issued_step; eauto. }
      eapply Y; eauto. }
    apply item_issue in D. destruct D as [D _]. destruct Hr as (_ & X & _). specialize (X _ _ _ _ Hin). congruence.
Qed.

(** Runs compose. *)
Lemma drun_app2 e1 : forall d0 d1 d2 t1 t2 e2, drun d0 e1 = Some (d1, t1) -> drun d1 e2 = Some (d2, t2) ->
  drun d0 (e1 ++ e2) = Some (d2, t1 ++ t2).
Proof.
  induction e1 as [|a e1 IH]; intros d0 d1 d2 t1 t2 e2 A C.
  - cbn in A. injection A as <- <-. exact C.
  - cbn [app DiskSpec.drun] in *. destruct (dstep d0 a) as [[dd tt]|]; [|discriminate].
    destruct (drun dd e1) as [[dd2 tt2]|] eqn:X; [|discriminate]. injection A as <- <-.
    rewrite (IH _ _ _ _ _ _ X C). now rewrite app_assoc.
Qed.

(** The state in which the item after [t1] is emitted, and the state after it. *)
Lemma run_at d0 es d t1 i t2 : drun d0 es = Some (d, t1 ++ i :: t2) ->
  exists e1 e e2 d1 d2, drun d0 e1 = Some (d1, t1) /\ dstep d1 e = Some (d2, [i]) /\ drun d2 e2 = Some (d, t2).
Proof.
  intros H. destruct (drun_cut _ _ _ _ _ H) as (e1 & e2 & d1 & A & B).
  destruct (drun_item _ _ _ _ _ B) as (e3 & e & e4 & d2 & d3 & C & D & E).
  exists (e1 ++ e3), e, e4, d2, d3. split; auto. rewrite <- (app_nil_r t1). eapply drun_app2; eauto.
Qed.

(** ** Values come from the initial contents or from writes *)

Definition Origin (contents : nat -> V) (t : list (titem V)) (x : nat) (v : V) : Prop :=
  v = contents x \/ exists m q id r, In (TIssue m q id r) t /\ covers r x v.

Definition Values contents (d : disk) (t : list (titem V)) : Prop :=
  Issued d t /\
  (forall x e, In e (d_hist d x) -> Origin contents t x (snd e)) /\
  (forall n q id off len got, d_ops d n = Some (mk_dop q id (DRead off len got)) ->
     forall i, match got i with
               | Some v => i < len /\ off + i < size /\ Origin contents t (off + i) v
               | None => True end).

Lemma origin_mono contents t t' x v : Origin contents t x v -> Origin contents (t ++ t') x v.
Proof. intros [->|(m & q & id & r & A & B)]; [now left|]. right. exists m, q, id, r. rewrite in_app_iff. auto. Qed.

Lemma trim_in {A} p (l : list (nat * A)) e : In e (trim p l) -> In e l.
Proof. induction l as [|a l IH]; cbn; auto. destruct (p (fst a)); cbn; intuition. Qed.

Lemma crashed_from {A} (l : list (nat * A)) i e : In e (crashed l i) -> exists e', In e' l /\ snd e = snd e'.
Proof.
  unfold crashed. destruct (nth_error l i) as [a|] eqn:E.
  - intros [<-|[]]. exists a. split; auto. eapply nth_error_In; eauto.
  - destruct l as [|a l]; [intros []|]. intros [<-|[]]. exists a. cbn; auto.
Qed.

Lemma values_step contents d t e d' t' : Values contents d t -> dstep d e = Some (d', t') -> Values contents d' (t ++ t').
Proof.
  intros (A & B & C) H. pose proof (issued_step _ _ _ _ _ A H) as A'. split; [exact A'|].
  assert (Bm : forall x e, In e (d_hist d x) -> Origin contents (t ++ t') x (snd e)) by (intros; apply origin_mono; auto).
  assert (Cm : forall n q id off len got, d_ops d n = Some (mk_dop q id (DRead off len got)) ->
     forall i, match got i with
               | Some v => i < len /\ off + i < size /\ Origin contents (t ++ t') (off + i) v
               | None => True end).
  { intros n q id off len got Hg i. specialize (C _ _ _ _ _ _ Hg i). destruct (got i); auto.
    destruct C as (C1 & C2 & C3). repeat split; auto using origin_mono. }
  clear A'. dcases H.
  - split; [exact Bm|]. intros m q' id' off len got Hm. unfold upd in Hm. destruct (Nat.eqb_spec m n); [|exact (Cm _ _ _ _ _ _ Hm)].
    injection Hm as _ _ Hk. destruct r; cbn in Hk; try discriminate. injection Hk as _ _ <-. auto.
  - split.
    + intros x e0 He. unfold upd in He. destruct (Nat.eqb_spec x (off + ii)); [|auto]. subst. destruct He as [<-|He]; auto.
      right. destruct A as (A1 & _). destruct (A1 _ _ _ _ Hop) as (t0 & r & t3 & -> & Hk & _).
      exists n, q, id, r. split; [rewrite !in_app_iff; cbn; auto|]. destruct r; cbn in Hk; try tauto. destruct Hk as [<- <-].
      exists ii. auto.
    + intros m q' id' off' len got Hm. unfold upd in Hm. destruct (Nat.eqb_spec m n); [congruence|exact (Cm _ _ _ _ _ _ Hm)].
  - split; [exact Bm|]. intros m q' id' off' len' got' Hm j. unfold upd in Hm. destruct (Nat.eqb_spec m n); [|exact (Cm _ _ _ _ _ _ Hm j)].
    injection Hm as <- <- <- <- <-. unfold upd. destruct (Nat.eqb_spec j ii); [|exact (Cm _ _ _ _ _ _ Hop j)]. subst j.
    destruct (d_hist d (off + ii)) as [|e1 l] eqn:E; cbn; auto. repeat split; auto. apply Bm. rewrite E. now left.
  - split; [exact Bm|]. intros m q' id' off' len' got' Hm. unfold upd in Hm. destruct (Nat.eqb_spec m n); [discriminate|exact (Cm _ _ _ _ _ _ Hm)].
  - split; [exact Bm|]. intros m q' id' off' len' got' Hm. unfold upd in Hm. destruct (Nat.eqb_spec m n); [discriminate|exact (Cm _ _ _ _ _ _ Hm)].
  - split; [exact Bm|]. intros m q' id' off' len' got' Hm. unfold upd in Hm. destruct (Nat.eqb_spec m n); [discriminate|exact (Cm _ _ _ _ _ _ Hm)].
  - split; [intros x e0 He; apply trim_in in He; auto|].
    intros m q' id' off' len' got' Hm. unfold upd in Hm. destruct (Nat.eqb_spec m n); [discriminate|exact (Cm _ _ _ _ _ _ Hm)].
  - split; [|discriminate]. intros x e0 He. apply crashed_from in He. destruct He as (e' & He & ->). auto.
Qed.

Lemma values_run contents es d t : drun (new_disk contents) es = Some (d, t) -> Values contents d t.
Proof.
  intros H. revert es d t H. apply run_ind.
  - split; [|split].
    + repeat split; try discriminate. intros n q id r [].
    + intros x e [<-|[]]. now left.
    + discriminate.
  - apply values_step.
Qed.

Theorem disk_reads_return_written (contents : nat -> V) tr d :
  disk_behaviour size contents tr d -> reads_return_written size contents tr.
Proof.
  intros (es & H) t1 n q id data t2 off len -> Hin.
  destruct (run_at _ _ _ _ _ _ H) as (e1 & e & e2 & d1 & d2 & A & B & C).
  apply values_run in A. destruct A as (I & _ & Hgot). apply item_done in B. destruct B as (k & Hk & B).
  assert (Hkr : exists got, k = DRead off len got).
  { destruct I as (I1 & I2 & _). destruct (I1 _ _ _ _ Hk) as (t0 & r & t3 & -> & Hkr & _).
    assert (Hcm : completions_match ((t0 ++ TIssue n q id r :: t3) ++ TDone n q id true data :: t2)).
    { eapply disk_completions_match. exists es. exact H. }
    destruct Hcm as [_ Hcm]. rewrite in_app_iff in Hin. cbn in Hin.
    assert (r = RRead off len).
    { destruct Hin as [Hin|[Hin|Hin]].
      - exfalso. eapply (Hcm t0 n q id r _ ); [rewrite <- app_assoc; reflexivity|exact Hin].
      - now injection Hin.
      - exfalso. apply in_split in Hin. destruct Hin as (ta & tb & ->).
        eapply (Hcm (t0 ++ TIssue n q id r :: ta) n q id (RRead off len)).
        + rewrite <- !app_assoc. cbn. rewrite <- app_assoc. reflexivity.
        + rewrite in_app_iff. cbn. eauto. }
    subst r. destruct k; cbn in Hkr; try tauto. destruct Hkr as [<- <-]. eauto. }
  destruct Hkr as (got & ->). cbn [DiskSpec.dstep] in B. rewrite Hk in B.
  destruct (in_range_all size off len (fun i => is_some (got i))) eqn:Ei; [|discriminate]. injection B as _ <-.
  assert (Hnth : forall i, nth_error (read_data len got) i = if i <? len then Some (got i) else None).
  { intros i. unfold read_data. destruct (Nat.ltb_spec i len).
    - rewrite nth_error_map. rewrite (nth_error_nth' _ 0) by (rewrite seq_length; auto). rewrite seq_nth by auto. auto.
    - apply nth_error_None. rewrite map_length, seq_length. auto. }
  split; [unfold read_data; now rewrite map_length, seq_length|]. split.
  - intros i Hi. rewrite Hnth in Hi. destruct (Nat.ltb_spec i len); [|discriminate]. injection Hi as Hi.
    destruct (Nat.ltb_spec (off + i) size); auto. pose proof (in_range_all_spec _ _ _ _ Ei i H0 H1) as X. cbn in X. rewrite Hi in X. discriminate.
  - intros i v Hi. rewrite Hnth in Hi. destruct (Nat.ltb_spec i len); [|discriminate]. injection Hi as Hi.
    specialize (Hgot _ _ _ _ _ _ Hk i). rewrite Hi in Hgot. tauto.
Qed.

(** ** Read after write, and durability *)

(** Only operation [w] may be a write in flight to sector [x]. *)
Definition only (x : nat) (w : option nat) (d : disk) : Prop :=
  forall n q id off data ap j, d_ops d n = Some (mk_dop q id (DWrite off data ap)) -> off + j = x -> j < length data -> w = Some n.

Definition not_covering (x : nat) (i : titem V) : Prop :=
  match i with TIssue _ _ _ r => forall v, ~ covers r x v | _ => True end.

Lemma only_step x w d e d' t' : only x w d -> dstep d e = Some (d', t') -> Forall (not_covering x) t' -> only x w d'.
Proof.
  unfold only. intros A H Hf. dcases H; intros m q' id' off' data' ap' j Hm Hj Hl; unfold upd in Hm.
  - destruct (Nat.eqb_spec m n); [|eauto]. injection Hm as _ _ Hk. destruct r; cbn in Hk; try discriminate.
    injection Hk as -> -> _. inversion_clear Hf as [|? ? Hc _]. cbn in Hc.
    destruct (nth_error data' j) as [v|] eqn:E.
    + exfalso. apply (Hc v). exists j. auto.
    + apply nth_error_None in E. lia.
  - destruct (Nat.eqb_spec m n); [|eauto]. subst m. injection Hm as <- <- <- <- <-. eapply A; eauto.
  - destruct (Nat.eqb_spec m n); [discriminate|eauto].
  - destruct (Nat.eqb_spec m n); [discriminate|eauto].
  - destruct (Nat.eqb_spec m n); [discriminate|eauto].
  - destruct (Nat.eqb_spec m n); [discriminate|eauto].
  - destruct (Nat.eqb_spec m n); [discriminate|eauto].
  - discriminate.
Qed.

(** Invariance along a run whose history satisfies [Q] item by item. *)
Lemma run_inv (P : disk -> Prop) (Q : titem V -> Prop) :
  (forall d e d' t', P d -> dstep d e = Some (d', t') -> Forall Q t' -> P d') ->
  forall es d d' t, P d -> drun d es = Some (d', t) -> Forall Q t -> P d'.
Proof.
  intros Hs es. induction es as [|e es IH]; intros d d' t HP H HQ; cbn [DiskSpec.drun] in H.
  - injection H as <- <-. auto.
  - destruct (dstep d e) as [[d1 t1]|] eqn:E; [|discriminate]. destruct (drun d1 es) as [[d2 t2]|] eqn:E2; [|discriminate].
    injection H as <- <-. apply Forall_app in HQ. destruct HQ as [Q1 Q2]. eapply IH; [|exact E2|exact Q2]. eapply Hs; eauto.
Qed.

(** A quiet history leaves no write to the sector in flight. *)
Lemma quiet_only contents es d t x : drun (new_disk contents) es = Some (d, t) -> quiet x t -> only x None d.
Proof.
  intros H Hq n q id off data ap j Hop Hj Hl. exfalso.
  pose proof (issued_run _ _ _ _ H) as (I1 & I2 & I3).
  destruct (I1 _ _ _ _ Hop) as (t0 & r & t3 & Et & Hk & Hc & Hd).
  destruct r; cbn in Hk; try tauto. destruct Hk as [-> ->].
  destruct (nth_error data j) as [v|] eqn:E; [|apply nth_error_None in E; lia].
  assert (Ho : over n t).
  { eapply Hq; [rewrite Et, in_app_iff; right; left; reflexivity|]. exists j. split; eauto. }
  destruct Ho as (t1 & t2 & q' & id' & r' & Et' & Hx).
  assert (t2 = t3).
  { assert (Hcm : completions_match t) by (eapply disk_completions_match; exists es; exact H).
    destruct Hcm as [_ Hcm]. clear - Et Et' Hcm. rewrite Et in Et'.
    revert t0 Et Et' Hcm. 
    assert (G : forall (a b : list (titem V)), forall t0 t1 n q id r q' id' r', 
       t0 ++ TIssue n q id r :: a = t1 ++ TIssue n q' id' r' :: b ->
       ~ (exists q'' id'' r'', In (TIssue n q'' id'' r'') t0) -> ~ (exists q'' id'' r'', In (TIssue n q'' id'' r'') t1) -> a = b).
    { clear. intros a b t0. induction t0 as [|i t0 IH]; intros t1 n q id r q' id' r' E A B; destruct t1 as [|i' t1]; cbn in E; injection E; intros; subst; auto.
      - exfalso. apply B. repeat eexists. left. reflexivity.
      - exfalso. apply A. repeat eexists. left. reflexivity.
      - eapply IH; eauto.
        + intros (q3 & id3 & r3 & X). apply A. repeat eexists. right. eauto.
        + intros (q3 & id3 & r3 & X). apply B. repeat eexists. right. eauto. }
    intros t0 Et Et' Hcm. symmetry. eapply G; [exact Et'| |].
    - intros (q'' & id'' & r'' & X). eapply Hcm; eauto.
    - intros (q'' & id'' & r'' & X). rewrite Et' in Et. eapply Hcm; [exact Et|exact X]. }
  subst t2. destruct Hx as [Hx|(q3 & id3 & ok & dd & Hx)]; [auto|]. eapply Hd; eauto.
Qed.

Section Raw.
Variables (x w : nat) (v : V).
Hypothesis Hx : x < size.

(** The write has started: once applied at [x] it is the newest value there. *)
Definition Started (d : disk) : Prop :=
  only x (Some w) d /\ d_used d w = true /\
  match d_ops d w with
  | Some (mk_dop q id (DWrite off data ap)) => exists j, off + j = x /\ nth_error data j = Some v /\
       (ap j = true -> exists l, d_hist d x = (w, v) :: l)
  | Some _ => False
  | None => True
  end.
(** The write has completed. *)
Definition Written (d : disk) : Prop :=
  only x None d /\ d_done d w = true /\ exists l, d_hist d x = (w, v) :: l.
(** A flush issued after the completion is in flight. *)
Definition Flushing (f : nat) (d : disk) : Prop :=
  Written d /\ d_used d f = true /\
  forall q id k, d_ops d f = Some (mk_dop q id k) -> exists snap, k = DFlush snap /\ snap w = true.
(** The sector is durable. *)
Definition Stable (d : disk) : Prop := only x None d /\ exists m, d_hist d x = [(m, v)].

Lemma trim_keeps p (l : list (nat * V)) e : exists l', trim p (e :: l) = e :: l'.
Proof. cbn. destruct (p (fst e)); eauto. Qed.

(** A write applied to another sector. *)
Lemma upd_other (d : disk) n q id off data ap i u :
  only x None d -> d_ops d n = Some (mk_dop q id (DWrite off data ap)) -> nth_error data i = Some u ->
  upd (d_hist d) (off + i) ((n, u) :: d_hist d (off + i)) x = d_hist d x.
Proof.
  intros Ho Hop Hn. unfold upd. destruct (Nat.eqb_spec x (off + i)); auto. exfalso.
  assert (None = Some n); [|discriminate]. eapply Ho; eauto. apply nth_error_Some. congruence.
Qed.

Definition calm (i : titem V) : Prop := not_covering x i /\ i <> TCrash.

Lemma calm_only t : Forall calm t -> Forall (not_covering x) t.
Proof. apply Forall_impl. intros i (A & _). exact A. Qed.

Lemma started_step d e d' t' : Started d -> dstep d e = Some (d', t') -> Forall calm t' -> Started d'.
Proof.
  intros (Ho & Hu & Hs) H Hf.
  pose proof (only_step x (Some w) _ _ _ _ Ho H (calm_only _ Hf)) as Ho'.
  split; [exact Ho'|]. clear Ho'.
  dcases H.
  - split; [unfold upd; destruct (w =? n); auto|]. unfold upd. destruct (Nat.eqb_spec w n); [congruence|exact Hs].
  - split; auto. destruct (Nat.eqb_spec w n).
    + subst n. rewrite Hop in Hs. destruct Hs as (j & Hj & Hn & Ha). unfold upd at 1. rewrite Nat.eqb_refl.
      exists j. repeat split; auto. intros Hap'. unfold upd. destruct (Nat.eqb_spec x (off + ii)).
      * assert (ii = j) by lia. subst ii. rewrite Hnth in Hn. injection Hn as ->. eauto.
      * apply Ha. unfold upd in Hap'. destruct (Nat.eqb_spec j ii); auto. lia.
    + unfold upd at 1. destruct (Nat.eqb_spec w n); [congruence|]. destruct (d_ops d w) as [[q' id' [|off' data' ap'|]]|]; auto.
      destruct Hs as (j & Hj & Hn & Ha). exists j. repeat split; auto. intros Hap'. unfold upd.
      destruct (Nat.eqb_spec x (off + ii)); [|auto]. exfalso.
      assert (Some w = Some n); [|congruence]. eapply Ho; eauto. apply nth_error_Some. congruence.
  - split; auto. unfold upd at 1. destruct (Nat.eqb_spec w n); [|exact Hs]. subst. rewrite Hop in Hs. tauto.
  - split; auto. unfold upd. destruct (Nat.eqb_spec w n); auto.
  - split; auto. unfold upd. destruct (Nat.eqb_spec w n); auto.
  - split; auto. unfold upd at 1. destruct (Nat.eqb_spec w n); auto.
  - split; auto. unfold upd. destruct (Nat.eqb_spec w n); auto. destruct (d_ops d w) as [[q' id' [|off' data' ap'|]]|]; auto.
    destruct Hs as (j & Hj & Hn & Ha). exists j. repeat split; auto. intros Hap'. destruct (Ha Hap') as (l & ->). apply trim_keeps.
  - inversion_clear Hf as [|? ? Hc _]. destruct Hc as (_ & Hc). congruence.
Qed.

Lemma started_done d e d' q id data : Started d -> dstep d e = Some (d', [TDone w q id true data]) -> Written d'.
Proof.
  intros (Ho & Hu & Hs) H.
  assert (Ho' : only x (Some w) d') by (eapply only_step; eauto; repeat constructor).
  destruct (item_done _ _ _ _ _ _ _ _ H) as (k & Hk & Hd). rewrite Hk in Hs.
  destruct k as [|off dd ap|]; try tauto. destruct Hs as (j & Hj & Hn & Ha). cbn [DiskSpec.dstep] in Hd. rewrite Hk in Hd.
  destruct (in_range_all size off (length dd) ap) eqn:Er; [|discriminate]. injection Hd as <- _.
  split; [|split]; cbn [d_ops d_used d_hist d_done] in *.
  - intros n q' id' off' data' ap' j' Hop A B. pose proof (Ho' _ _ _ _ _ _ _ Hop A B) as X. injection X as <-.
    cbn in Hop. unfold upd in Hop. rewrite Nat.eqb_refl in Hop. discriminate.
  - unfold upd. now rewrite Nat.eqb_refl.
  - apply Ha. apply (in_range_all_spec _ _ _ _ Er); [|lia]. apply nth_error_Some. congruence.
Qed.

Lemma written_step d e d' t' : Written d -> dstep d e = Some (d', t') -> Forall calm t' -> Written d'.
Proof.
  intros (Ho & Hd & l & Hl) H Hf. pose proof (only_step x None _ _ _ _ Ho H (calm_only _ Hf)) as Ho'.
  split; [exact Ho'|]. clear Ho'. dcases H; eauto.
  - split; auto. erewrite upd_other; eauto.
  - split; eauto. unfold upd. destruct (w =? n); auto.
  - split; auto. rewrite Hl. apply trim_keeps.
  - inversion_clear Hf as [|? ? Hc _]. destruct Hc as (_ & Hc). congruence.
Qed.

Lemma written_issue_flush d f q id : Written d -> Flushing f (dissue f q id RFlush d).
Proof.
  intros HW. split; [|split].
  - destruct HW as (Ho & Hd & Hl). split; [|auto].
    intros n q' id' off data ap j Hop. cbn in Hop. unfold upd in Hop. destruct (Nat.eqb_spec n f); [discriminate|eauto].
  - cbn. unfold upd. now rewrite Nat.eqb_refl.
  - intros q' id' k Hk. cbn in Hk. unfold upd in Hk. rewrite Nat.eqb_refl in Hk. injection Hk as _ _ <-.
    destruct HW as (_ & Hd & _). eauto.
Qed.

Lemma flushing_step f d e d' t' : Flushing f d -> dstep d e = Some (d', t') -> Forall calm t' -> Flushing f d'.
Proof.
  intros (HW & Hu & Hk) H Hf. pose proof (written_step _ _ _ _ HW H Hf) as HW'. split; [exact HW'|]. clear HW'.
  dcases H.
  - split; [unfold upd; destruct (f =? n); auto|]. intros q' id' k. unfold upd. destruct (Nat.eqb_spec f n); [congruence|eauto].
  - split; auto. intros q' id' k. unfold upd at 1. destruct (Nat.eqb_spec f n); [|eauto]. subst.
    destruct (Hk _ _ _ Hop) as (snap & E & _). discriminate.
  - split; auto. intros q' id' k. unfold upd at 1. destruct (Nat.eqb_spec f n); [|eauto]. subst.
    destruct (Hk _ _ _ Hop) as (snap & E & _). discriminate.
  - split; auto. intros q' id' k'. unfold upd. destruct (Nat.eqb_spec f n); [discriminate|eauto].
  - split; auto. intros q' id' k'. unfold upd. destruct (Nat.eqb_spec f n); [discriminate|eauto].
  - split; auto. intros q' id' k'. unfold upd. destruct (Nat.eqb_spec f n); [discriminate|eauto].
  - split; auto. intros q' id' k'. unfold upd. destruct (Nat.eqb_spec f n); [discriminate|eauto].
  - split; auto. discriminate.
Qed.

Lemma flushing_done f d e d' q id data : Flushing f d -> dstep d e = Some (d', [TDone f q id true data]) -> Stable d'.
Proof.
  intros ((Ho & Hd & l & Hl) & Hu & Hk) H.
  assert (Ho' : only x None d') by (eapply only_step; eauto; repeat constructor).
  destruct (item_done _ _ _ _ _ _ _ _ H) as (k & Hop & Hs). destruct (Hk _ _ _ Hop) as (snap & -> & Hw).
  cbn [DiskSpec.dstep] in Hs. rewrite Hop in Hs. injection Hs as <- _. split; [exact Ho'|].
  cbn [d_hist]. rewrite Hl. cbn. rewrite Hw. eauto.
Qed.

Lemma stable_step d e d' t' : Stable d -> dstep d e = Some (d', t') -> Forall (not_covering x) t' -> Stable d'.
Proof.
  intros (Ho & m & Hl) H Hf. pose proof (only_step x None _ _ _ _ Ho H Hf) as Ho'.
  split; [exact Ho'|]. clear Ho'. dcases H; eauto.
  - erewrite upd_other; eauto.
  - rewrite Hl. cbn. destruct (snap m); eauto.
  - rewrite Hl. unfold crashed. destruct (p x) as [|[]]; cbn; eauto.
Qed.

(** Reading. *)
Definition Reading (rn off len i : nat) (d : disk) : Prop :=
  d_used d rn = true /\
  (d_ops d rn = None \/
   (Written d \/ Stable d) /\ exists q id got, d_ops d rn = Some (mk_dop q id (DRead off len got)) /\ (got i = None \/ got i = Some v)).

Lemma reading_step rn roff rlen i d e d' t' : roff + i = x -> Reading rn roff rlen i d -> dstep d e = Some (d', t') ->
  Forall (not_covering x) t' -> Reading rn roff rlen i d'.
Proof.
  intros Hi (Hu & Hr) H Hf.
  assert (Hu' : d_used d' rn = true) by (dcases H; auto; unfold upd; destruct (rn =? n); auto).
  split; [exact Hu'|]. clear Hu'.
  destruct Hr as [Hr|(Hset & q0 & id0 & got0 & Hop0 & Hg)].
  { left. dcases H; auto; unfold upd; destruct (Nat.eqb_spec rn n); auto; congruence. }
  assert (Hset' : t' = [TCrash] \/ (Written d' \/ Stable d')).
  { destruct (dstep_cases _ _ _ _ H) as [->|(it & ->)].
    - right. destruct Hset; [left; eapply written_step|right; eapply stable_step]; eauto.
    - assert (D : {it = TCrash} + {it <> TCrash}) by (destruct it; (left; reflexivity) || (right; discriminate)).
      destruct D as [->|Hn]; auto. right.
      destruct Hset; [left; eapply written_step|right; eapply stable_step]; eauto.
      inversion_clear Hf. repeat constructor; auto. }
  assert (Hcur : cur (d_hist d x) = Some v).
  { destruct Hset as [(_ & _ & l & ->)|(_ & m & ->)]; auto. }
  assert (Hkeep : t' <> [TCrash] -> (Written d' \/ Stable d')) by tauto. clear Hset'.
  dcases H.
  - right. split; [apply Hkeep; discriminate|]. exists q0, id0, got0. unfold upd. destruct (Nat.eqb_spec rn n); [congruence|auto].
  - right. split; [apply Hkeep; discriminate|]. exists q0, id0, got0. unfold upd at 1. destruct (Nat.eqb_spec rn n); [congruence|auto].
  - right. split; [apply Hkeep; discriminate|]. unfold upd at 1. destruct (Nat.eqb_spec rn n); [|eauto].
    subst n. rewrite Hop in Hop0. injection Hop0 as -> -> -> -> ->. do 3 eexists. split; [reflexivity|].
    unfold upd. destruct (Nat.eqb_spec i ii); auto. subst ii. rewrite Hi, Hcur. auto.
  - unfold upd at 1. destruct (Nat.eqb_spec rn n); [auto|]. right. split; [apply Hkeep; discriminate|].
    exists q0, id0, got0. unfold upd. destruct (Nat.eqb_spec rn n); [congruence|auto].
  - unfold upd at 1. destruct (Nat.eqb_spec rn n); [auto|]. right. split; [apply Hkeep; discriminate|].
    exists q0, id0, got0. unfold upd. destruct (Nat.eqb_spec rn n); [congruence|auto].
  - unfold upd at 1. destruct (Nat.eqb_spec rn n); [auto|]. right. split; [apply Hkeep; discriminate|].
    exists q0, id0, got0. unfold upd. destruct (Nat.eqb_spec rn n); [congruence|auto].
  - unfold upd at 1. destruct (Nat.eqb_spec rn n); [auto|]. right. split; [apply Hkeep; discriminate|].
    exists q0, id0, got0. unfold upd. destruct (Nat.eqb_spec rn n); [congruence|auto].
  - auto.
Qed.

End Raw.

Lemma untouched_forall x (t : list (titem V)) : untouched x t -> Forall (not_covering x) t.
Proof. intros H. apply Forall_forall. intros [n q id r| |] Hi; cbn; auto. intros v. eapply H; eauto. Qed.

Lemma calm_forall x (t : list (titem V)) : untouched x t -> ~ In TCrash t -> Forall (calm x) t.
Proof.
  intros H Hc. apply untouched_forall in H. rewrite Forall_forall in *. intros i Hi. split; auto. congruence.
Qed.

Theorem disk_reads_see_writes (contents : nat -> V) tr d : disk_behaviour size contents tr d -> reads_see_writes size tr.
Proof.
  intros (es & H) t0 w q id r t1 q1 id1 d1 t2 n q2 id2 off len t3 q3 id3 data t4 x i v Et Hc Hx Hi Hlen Hq0 Hu1 Hu2 Hu3 Hc1 Hc2.
  subst tr.
  destruct (run_at _ _ _ _ _ _ H) as (ea & e1 & eb & da & db & A1 & A2 & H1).
  apply item_issue in A2. destruct A2 as [A2 ->]. pose proof (quiet_only _ _ _ _ _ A1 Hq0) as Hq.
  destruct (run_at _ _ _ _ _ _ H1) as (ec & e2 & ed & dc & dd & B1 & B2 & H2).
  assert (HS : Started x w v (dissue w q id r da)).
  { destruct r as [|woff wdata|]; cbn in Hc; try tauto. destruct Hc as (j & Hj & Hn). split; [|split].
    - intros m q' id' off' data' ap' j' Hm A B. cbn in Hm. unfold upd in Hm. destruct (Nat.eqb_spec m w); [congruence|].
      specialize (Hq _ _ _ _ _ _ _ Hm A B). discriminate.
    - cbn. unfold upd. now rewrite Nat.eqb_refl.
    - cbn. unfold upd. rewrite Nat.eqb_refl. exists j. repeat split; auto. discriminate. }
  assert (HS2 : Started x w v dc).
  { eapply (run_inv (Started x w v) (calm x)); [intros; eapply started_step; eauto|exact HS|exact B1|]. apply calm_forall; auto. }
  pose proof (started_done _ _ _ Hx _ _ _ _ _ _ HS2 B2) as HW.
  destruct (run_at _ _ _ _ _ _ H2) as (ef & e3 & eg & de & df & C1 & C2 & H3).
  assert (Hset : Written x w v de \/ Stable x v de).
  { destruct Hc2 as [Hc2|Hfl].
    - left. eapply (run_inv (Written x w v) (calm x)); [intros; eapply written_step; eauto|exact HW|exact C1|]. apply calm_forall; auto.
    - right. destruct Hfl as (ta & f & qf & idf & tb & qg & idg & dataf & tc & Et2 & Na & Nb).
      rewrite Et2 in C1. destruct (run_at _ _ _ _ _ _ C1) as (eh & e4 & ei & dg & dh & D1 & D2 & C3).
      assert (Hin : forall t, (forall it, In it t -> In it t2) -> untouched x t).
      { intros t Ht m q' id' r' u Hm. eapply Hu2; eauto. }
      assert (HWa : Written x w v dg).
      { eapply (run_inv (Written x w v) (calm x)); [intros; eapply written_step; eauto|exact HW|exact D1|].
        apply calm_forall; auto. apply Hin. intros it Hit. rewrite Et2, in_app_iff. auto. }
      apply item_issue in D2. destruct D2 as [_ ->].
      pose proof (written_issue_flush _ _ _ _ f qf idf HWa) as HF.
      destruct (run_at _ _ _ _ _ _ C3) as (ej & e5 & ek & di & dj & E1 & E2 & C4).
      assert (HF2 : Flushing x w v f di).
      { eapply (run_inv (Flushing x w v f) (calm x)); [intros; eapply flushing_step; eauto|exact HF|exact E1|].
        apply calm_forall; auto. apply Hin. intros it Hit. rewrite Et2, !in_app_iff. cbn. rewrite in_app_iff. auto. }
      pose proof (flushing_done _ _ _ _ _ _ _ _ _ _ HF2 E2) as HSt.
      eapply (run_inv (Stable x v) (not_covering x)); [intros; eapply stable_step; eauto|exact HSt|exact C4|].
      apply untouched_forall. apply Hin. intros it Hit. rewrite Et2, !in_app_iff. cbn. rewrite in_app_iff. cbn. auto. }
  apply item_issue in C2. destruct C2 as [_ ->].
  assert (HR : Reading x w v n off len i (dissue n q2 id2 (RRead off len) de)).
  { split; [cbn; unfold upd; now rewrite Nat.eqb_refl|]. right. split.
    - assert (Hon : forall o, only x o de -> only x o (dissue n q2 id2 (RRead off len) de)).
      { intros o Ho m q' id' off' data' ap' j' Hm. cbn in Hm. unfold upd in Hm. destruct (Nat.eqb_spec m n); [discriminate|eauto]. }
      destruct Hset as [(A & B & C)|(A & B)]; [left; split|right; split]; auto.
    - exists q2, id2, (fun _ => None). cbn. unfold upd. rewrite Nat.eqb_refl. auto. }
  destruct (run_at _ _ _ _ _ _ H3) as (el & e6 & em & dk & dl & F1 & F2 & _).
  assert (HR2 : Reading x w v n off len i dk).
  { eapply (run_inv (Reading x w v n off len i) (not_covering x)); [intros; eapply reading_step; eauto|exact HR|exact F1|].
    apply untouched_forall; auto. }
  destruct (item_done _ _ _ _ _ _ _ _ F2) as (k & Hk & F3). destruct HR2 as (_ & [HR2|(_ & q' & id' & got & Hg & Hv)]); [congruence|].
  rewrite Hg in Hk. injection Hk as -> -> <-. cbn [DiskSpec.dstep] in F3. rewrite Hg in F3.
  destruct (in_range_all size off len (fun i => is_some (got i))) eqn:Er; [|discriminate]. injection F3 as _ <-.
  unfold read_data. rewrite nth_error_map, (nth_error_nth' _ 0) by (rewrite seq_length; auto). rewrite seq_nth by auto.
  cbn. f_equal. pose proof (in_range_all_spec _ _ _ _ Er i Hlen ltac:(lia)) as X. cbn in X. destruct Hv as [Hv|Hv]; auto.
  rewrite Hv in X. discriminate.
Qed.

End Facts.
