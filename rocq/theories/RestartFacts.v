(** Histories of an ordinary disk put end to end: what a disk shows up to a crash, and what
    a new disk with the contents the first was left with shows, is a history of one disk. *)
From Coq Require Import List Arith Bool Lia.
Import ListNotations.
From Verif Require Import Base BaseFacts DiskSpec TraceSpec TraceFacts RestartSpec.

Section Chain.
Context {V : Type}.
Variable size : nat.
Notation disk := (disk V).
Notation dstep := (@dstep V size).
Notation drun := (@drun V size).

(** ** The disk after a crash *)

Lemma stuck_after_crash (d : disk) es d' : (forall n, d_ops d n = None) -> drun d es = Some (d', []) -> d' = d.
Proof.
  intros Ho. destruct es as [|e es]; cbn [DiskSpec.drun]; intros H; [now injection H as <-|]. exfalso.
  destruct (dstep d e) as [[d1 t1]|] eqn:E; [|discriminate]. destruct (drun d1 es) as [[d2 t2]|]; [|discriminate].
  injection H as _ H. apply app_eq_nil in H as (-> & _).
  destruct e as [n q id r|n i|n i|n ok|p]; cbn [DiskSpec.dstep] in E.
  - destruct (d_used d n); discriminate.
  - now rewrite Ho in E.
  - now rewrite Ho in E.
  - now rewrite Ho in E.
  - discriminate.
Qed.

(** Nothing is in flight, and every sector has one value, always durable. *)
Definition settled (d : disk) : Prop :=
  (forall n, d_ops d n = None) /\ forall x, d_hist d x <> [] -> exists v, d_hist d x = [(0, v)].

Lemma settled_crash contents t d : disk_behaviour size contents (t ++ [TCrash]) d -> settled d.
Proof.
  intros (es & H). destruct (drun_cut _ _ _ _ _ _ H) as (e1 & e2 & d1 & _ & H2).
  destruct (drun_item _ _ _ _ _ _ H2) as (e0 & e & e3 & d2 & d3 & _ & S & H3).
  assert (X : settled d3).
  { apply item_crash in S as (p & ->). split; [reflexivity|]. intros x Hx. cbn [d_hist] in *. unfold crashed in *.
    destruct (nth_error (d_hist d2 x) (p x)); [eauto|]. destruct (d_hist d2 x); [congruence|eauto]. }
  rewrite (stuck_after_crash _ _ _ (proj1 X) H3). exact X.
Qed.

(** The serials of a disk are those of its history. *)
Lemma accounted contents es d t : drun (new_disk contents) es = Some (d, t) ->
  d_done d 0 = true /\ (forall n, d_done d n = true -> d_used d n = true) /\
  (forall n o, d_ops d n = Some o -> d_used d n = true) /\
  forall n, d_used d n = true -> n = 0 \/ exists q id r, In (TIssue n q id r) t.
Proof.
  apply (run_ind size (fun d t => d_done d 0 = true /\ (forall n, d_done d n = true -> d_used d n = true) /\
    (forall n o, d_ops d n = Some o -> d_used d n = true) /\
    forall n, d_used d n = true -> n = 0 \/ exists q id r, In (TIssue n q id r) t)).
  - split; [reflexivity|]. split; [auto|]. split; [discriminate|]. intros n H. left. apply Nat.eqb_eq. exact H.
  - intros d1 t1 e d2 t2 (Z & D & O & IH) S.
    assert (W : forall n, d_used d1 n = true -> n = 0 \/ exists q id r, In (TIssue n q id r) (t1 ++ t2)).
    { intros n X. destruct (IH n X) as [->|(q & id & r & Y)]; [now left|]. right. exists q, id, r. apply in_or_app. now left. }
    assert (Up : forall n x m o, (x <> None -> d_used d1 n = true) -> upd (d_ops d1) n x m = Some o -> d_used d1 m = true).
    { intros n x m o Hx. unfold upd. destruct (Nat.eqb_spec m n) as [->|]; [|eauto]. intros ->. apply Hx. discriminate. }
    destruct e as [m q id r|m i|m i|m ok|p]; cbn [DiskSpec.dstep] in S.
    + destruct (d_used d1 m) eqn:U; [discriminate|]. injection S as <- <-. cbn [dissue d_used d_done d_ops]. split; [exact Z|]. split; [|split].
      * intros n X. unfold upd. destruct (Nat.eqb_spec n m); auto.
      * intros n o. unfold upd. destruct (Nat.eqb_spec n m); eauto.
      * intros n. unfold upd. destruct (Nat.eqb_spec n m) as [->|]; [|auto]. intros _. right. exists q, id, r. apply in_or_app. right. now left.
    + destruct (d_ops d1 m) as [[q id [off len got|off data ap|sn]]|] eqn:Em; try discriminate. destruct (nth_error data i); [|discriminate].
      destruct (_ && _); [|discriminate]. injection S as <- <-. cbn [d_used d_done d_ops]. split; [exact Z|]. split; [exact D|]. split; [|exact W].
      intros n o. apply Up. intros _. eauto.
    + destruct (d_ops d1 m) as [[q id [off len got|off data ap|sn]]|] eqn:Em; try discriminate.
      destruct (_ && _); [|discriminate]. injection S as <- <-. cbn [set_kind d_used d_done d_ops]. split; [exact Z|]. split; [exact D|]. split; [|exact W].
      intros n o. apply Up. intros _. eauto.
    + destruct (d_ops d1 m) as [[q id k]|] eqn:Em; [|discriminate].
      assert (U : d_used d1 m = true) by eauto.
      assert (Up' : forall n o, upd (d_ops d1) m None n = Some o -> d_used d1 n = true) by (intros n o; apply Up; congruence).
      destruct ok; [|injection S as <- <-; cbn [finish d_used d_done d_ops]; auto].
      destruct k; try (destruct (in_range_all _ _ _ _); [|discriminate]); injection S as <- <-; cbn [finish d_used d_done d_ops]; auto.
      split; [unfold upd; destruct (Nat.eqb_spec 0 m); auto|]. split; [|auto].
      intros n. unfold upd. destruct (Nat.eqb_spec n m) as [->|]; auto.
    + injection S as <- <-. cbn [d_used d_done d_ops]. split; [exact Z|]. split; [exact D|]. split; [discriminate|exact W].
Qed.

(** ** Renumbering *)

Variable K : nat.
Definition sg (n : nat) : nat := if n =? 0 then 0 else K + n.
Definition sge (e : nat * V) : nat * V := (sg (fst e), snd e).

Definition agree (p p' : nat -> bool) : Prop := p' 0 = p 0 /\ forall n, 0 < n -> p' (K + n) = p n.

Lemma agree_sg p p' n : agree p p' -> p' (sg n) = p n.
Proof. intros (A & B). unfold sg. destruct (Nat.eqb_spec n 0) as [->|]; [exact A|]. apply B. lia. Qed.

Lemma agree_upd p p' n b : 0 < n -> agree p p' -> agree (upd p n b) (upd p' (K + n) b).
Proof.
  intros Hn (A & B). unfold agree, upd. split.
  - destruct (Nat.eqb_spec 0 n); [lia|]. destruct (Nat.eqb_spec 0 (K + n)); [lia|exact A].
  - intros m Hm. destruct (Nat.eqb_spec (K + m) (K + n)), (Nat.eqb_spec m n); try lia; auto.
Qed.

Lemma trim_sge p p' l : agree p p' -> trim p' (map sge l) = map sge (trim p l).
Proof.
  intros A. induction l as [|e l IH]; [reflexivity|]. cbn [map trim]. cbn [sge fst]. rewrite (agree_sg _ _ _ A).
  destruct (p (fst e)); [reflexivity|]. cbn [map]. now rewrite IH.
Qed.

Lemma cur_sge l : cur (map sge l) = cur l.
Proof. destruct l; reflexivity. Qed.

Lemma crashed_sge l i : crashed (map sge l) i = map sge (crashed l i).
Proof.
  unfold crashed. rewrite nth_error_map. destruct (nth_error l i); cbn; [reflexivity|]. destruct l; reflexivity.
Qed.

Inductive same_op : option (dop V) -> option (dop V) -> Prop :=
| so_none : same_op None None
| so_read : forall q id off len got, same_op (Some (mk_dop q id (DRead off len got))) (Some (mk_dop q id (DRead off len got)))
| so_write : forall q id off data ap, same_op (Some (mk_dop q id (DWrite off data ap))) (Some (mk_dop q id (DWrite off data ap)))
| so_flush : forall q id sn sn', agree sn sn' ->
    same_op (Some (mk_dop q id (DFlush sn))) (Some (mk_dop q id (DFlush sn'))).

Record alike (d d' : disk) : Prop := {
  k_zero : d_ops d 0 = None /\ d_used d 0 = true;
  k_ops : forall n, 0 < n -> same_op (d_ops d n) (d_ops d' (K + n));
  k_used : forall n, 0 < n -> d_used d' (K + n) = d_used d n;
  k_done : agree (d_done d) (d_done d');
  k_hist : forall x, x < size -> d_hist d' x = map sge (d_hist d x)
}.

Lemma ops_upd (o o' : nat -> option (dop V)) n x x' : 0 < n -> (forall m, 0 < m -> same_op (o m) (o' (K + m))) -> same_op x x' ->
  forall m, 0 < m -> same_op (upd o n x m) (upd o' (K + n) x' (K + m)).
Proof.
  intros Hn A B m Hm. unfold upd. destruct (Nat.eqb_spec (K + m) (K + n)), (Nat.eqb_spec m n); try lia; auto.
Qed.

Lemma zero_upd (o : nat -> option (dop V)) n x : 0 < n -> o 0 = None -> upd o n x 0 = None.
Proof. intros Hn H. unfold upd. destruct (Nat.eqb_spec 0 n); [lia|exact H]. Qed.

Lemma alike_step d d' e d1 t : alike d d' -> dstep d e = Some (d1, t) ->
  exists e' d1', dstep d' e' = Some (d1', map (renumber K) t) /\ alike d1 d1'.
Proof.
  intros A S. destruct A as [(Z1 & Z2) Ho Hu Hd Hh].
  assert (P : forall n o, d_ops d n = Some o -> 0 < n) by (intros [|n] o X; [congruence|lia]).
  destruct e as [n q id r|n i|n i|n ok|p]; cbn [DiskSpec.dstep] in S.
  - destruct (d_used d n) eqn:U; [discriminate|]. assert (Hn : 0 < n) by (destruct n; [congruence|lia]). injection S as <- <-.
    exists (DIssue (K + n) q id r), (dissue (K + n) q id r d'). cbn [DiskSpec.dstep map renumber]. rewrite (Hu n Hn), U. split; [reflexivity|].
    constructor; cbn [dissue d_ops d_used d_hist d_done].
    + split; [now apply zero_upd|]. unfold upd. destruct (Nat.eqb_spec 0 n); auto.
    + apply ops_upd; auto. destruct r; cbn [start_kind]; constructor. exact Hd.
    + intros m Hm. unfold upd. destruct (Nat.eqb_spec (K + m) (K + n)), (Nat.eqb_spec m n); try lia; auto.
    + exact Hd.
    + exact Hh.
  - destruct (d_ops d n) as [[q id [off len got|off data ap|sn]]|] eqn:O; try discriminate. pose proof (P _ _ O) as Hn.
    destruct (nth_error data i) as [v|] eqn:Nv; [|discriminate]. destruct ((off + i <? size) && negb (ap i)) eqn:C; [|discriminate].
    injection S as <- <-. pose proof (Ho n Hn) as X. rewrite O in X. inversion X as [| |q0 id0 off0 data0 ap0 E0 E|]; subst. clear X.
    eexists (DApply (K + n) i), _. cbn [DiskSpec.dstep map]. rewrite <- E, Nv, C. split; [reflexivity|].
    constructor; cbn [d_ops d_used d_hist d_done]; auto.
    + split; [now apply zero_upd|auto].
    + apply ops_upd; auto. constructor.
    + intros x Hx. unfold upd. destruct (Nat.eqb_spec x (off + i)) as [->|]; [|auto]. rewrite (Hh _ Hx). cbn [map sge fst snd].
      unfold sge at 2, sg. cbn [fst snd]. destruct (Nat.eqb_spec n 0); [lia|reflexivity].
  - destruct (d_ops d n) as [[q id [off len got|off data ap|sn]]|] eqn:O; try discriminate. pose proof (P _ _ O) as Hn.
    destruct ((off + i <? size) && (i <? len)) eqn:C; [|discriminate].
    injection S as <- <-. pose proof (Ho n Hn) as X. rewrite O in X. inversion X as [|q0 id0 off0 len0 got0 E0 E| |]; subst. clear X.
    eexists (DSample (K + n) i), _. cbn [DiskSpec.dstep map]. rewrite <- E, C. split; [reflexivity|].
    apply andb_true_iff in C as (C & _). apply Nat.ltb_lt in C.
    constructor; cbn [set_kind d_ops d_used d_hist d_done d_ch d_id]; auto.
    + split; [now apply zero_upd|auto].
    + apply ops_upd; auto. rewrite (Hh _ C), cur_sge. constructor.
  - destruct (d_ops d n) as [[q id k]|] eqn:O; [|discriminate]. pose proof (P _ _ O) as Hn. pose proof (Ho n Hn) as X. rewrite O in X.
    destruct (d_ops d' (K + n)) as [[q' id' k']|] eqn:E; [|inversion X].
    assert (Eq : q' = q /\ id' = id) by (inversion X; auto). destruct Eq as (-> & ->).
    destruct ok.
    + destruct k as [off len got|off data ap|sn].
      * destruct (in_range_all size off len _) eqn:C; [|discriminate]. injection S as <- <-.
        assert (Ek : k' = DRead off len got) by (inversion X; auto). subst k'.
        eexists (DDone (K + n) true), _. cbn [DiskSpec.dstep map renumber]. rewrite E, C. split; [reflexivity|].
        constructor; cbn [finish d_ops d_used d_hist d_done]; auto; [split; [now apply zero_upd|auto]|apply ops_upd; auto; constructor].
      * destruct (in_range_all size off (length data) ap) eqn:C; [|discriminate]. injection S as <- <-.
        assert (Ek : k' = DWrite off data ap) by (inversion X; auto). subst k'.
        eexists (DDone (K + n) true), _. cbn [DiskSpec.dstep map renumber]. rewrite E, C. split; [reflexivity|].
        constructor; cbn [finish d_ops d_used d_hist d_done]; auto; [split; [now apply zero_upd|auto]|apply ops_upd; auto; constructor|].
        now apply agree_upd.
      * injection S as <- <-. assert (Ek : exists sn', k' = DFlush sn' /\ agree sn sn') by (inversion X; eauto).
        destruct Ek as (sn' & -> & Ag).
        eexists (DDone (K + n) true), _. cbn [DiskSpec.dstep map renumber]. rewrite E. split; [reflexivity|].
        constructor; cbn [finish d_ops d_used d_hist d_done]; auto; [split; [now apply zero_upd|auto]|apply ops_upd; auto; constructor|].
        intros x Hx. rewrite (Hh x Hx). now apply trim_sge.
    + injection S as <- <-. eexists (DDone (K + n) false), _. cbn [DiskSpec.dstep map renumber]. rewrite E. split; [reflexivity|].
      constructor; cbn [finish d_ops d_used d_hist d_done]; auto; [split; [now apply zero_upd|auto]|apply ops_upd; auto; constructor].
  - injection S as <- <-. eexists (DCrash p), _. cbn [DiskSpec.dstep map renumber]. split; [reflexivity|].
    constructor; cbn [d_ops d_used d_hist d_done]; auto; [intros; constructor|].
    intros x Hx. rewrite (Hh x Hx). apply crashed_sge.
Qed.

Lemma alike_run es : forall d d' d1 t, alike d d' -> drun d es = Some (d1, t) ->
  exists es' d1', drun d' es' = Some (d1', map (renumber K) t) /\ alike d1 d1'.
Proof.
  induction es as [|e es IH]; intros d d' d1 t A H; cbn [DiskSpec.drun] in H.
  - injection H as <- <-. exists [], d'. auto.
  - destruct (dstep d e) as [[d2 t1]|] eqn:S; [|discriminate]. destruct (drun d2 es) as [[d3 t2]|] eqn:R; [|discriminate].
    injection H as <- <-. destruct (alike_step _ _ _ _ _ A S) as (e' & d2' & S' & A2). destruct (IH _ _ _ _ A2 R) as (es' & d3' & R' & A3).
    exists (e' :: es'), d3'. cbn [DiskSpec.drun]. rewrite S', R', map_app. auto.
Qed.

(** ** One disk *)

Lemma one_after_the_other (c0 : nat -> V) t1 d1 (c1 : nat -> V) t2 d2 :
  disk_behaviour size c0 (t1 ++ [TCrash]) d1 ->
  (forall x, x < size -> cur (d_hist d1 x) = Some (c1 x)) ->
  disk_behaviour size c1 t2 d2 ->
  numbered_upto K (t1 ++ [TCrash]) ->
  exists d, disk_behaviour size c0 ((t1 ++ [TCrash]) ++ map (renumber K) t2) d /\
    forall x, x < size -> cur (d_hist d x) = cur (d_hist d2 x).
Proof.
  intros B1 E B2 HK. destruct (settled_crash _ _ _ B1) as (So & Sh). destruct B1 as (es1 & R1). destruct B2 as (es2 & R2).
  destruct (accounted _ _ _ _ R1) as (D0 & Du & _ & Ui).
  assert (A : alike (new_disk c1) d1).
  { constructor; cbn [new_disk d_ops d_used d_hist d_done].
    - split; reflexivity.
    - intros n Hn. rewrite So. constructor.
    - intros n Hn. replace (n =? 0) with false by (symmetry; apply Nat.eqb_neq; lia).
      destruct (d_used d1 (K + n)) eqn:U; auto. exfalso. destruct (Ui _ U) as [X|(q & id & r & X)]; [lia|].
      apply HK in X. lia.
    - split; [rewrite D0; reflexivity|]. intros n Hn.
      replace (n =? 0) with false by (symmetry; apply Nat.eqb_neq; lia).
      destruct (d_done d1 (K + n)) eqn:U; auto. exfalso. apply Du in U. destruct (Ui _ U) as [X|(q & id & r & X)]; [lia|].
      apply HK in X. lia.
    - intros x Hx. specialize (E x Hx). destruct (Sh x) as (v & Hv); [intros X; rewrite X in E; discriminate|].
      rewrite Hv in *. cbn in E. injection E as ->. reflexivity. }
  destruct (alike_run _ _ _ _ _ A R2) as (es' & d' & R' & A'). exists d'. split.
  - exists (es1 ++ es'). eapply drun_app2; eauto.
  - intros x Hx. rewrite (k_hist _ _ A' x Hx). apply cur_sge.
Qed.
End Chain.
