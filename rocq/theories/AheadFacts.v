(** Two disks, one of which gets its requests earlier than the other: whoever issues
    requests to a queue in front of a disk sees a disk too. *)
From Coq Require Import List Arith Bool Lia ZifyBool ZifyNat.
Import ListNotations.
From Verif Require Import Base BaseFacts DiskSpec TraceSpec TraceFacts.

Section Ahead.
Context {V : Type}.
Variable size : nat.
Notation disk := (disk V).

Definition kind_le (k k' : dkind V) : Prop :=
  match k with
  | DFlush snap => exists snap', k' = DFlush snap' /\ forall m, snap' m = true -> snap m = true
  | _ => k' = k
  end.

Definition op_le (o o' : option (dop V)) : Prop :=
  match o with
  | None => o' = None
  | Some (mk_dop q id k) => exists k', o' = Some (mk_dop q id k') /\ kind_le k k'
  end.

(** The early kind of a request still to come. *)
Definition early_kind (dn : nat -> bool) (r : req V) (k : dkind V) : Prop :=
  match r with
  | RFlush => exists snap, k = DFlush snap /\ forall m, snap m = true -> dn m = true
  | RRead off len => k = DRead off len (fun _ => None)
  | RWrite off data => k = DWrite off data (fun _ => false)
  end.

Definition soon := nat -> option (nat * nat * req V).

(** [l] is [l'] without its oldest entries. *)
Definition newer (l l' : list (nat * V)) : Prop := l <> [] /\ exists old, l' = l ++ old.

Record ahead (E : soon) (d d' : disk) : Prop := {
  a_used : forall n, d_used d n = true -> d_used d' n = true;
  a_done : forall n, d_done d' n = d_done d n;
  a_hist : forall x, newer (d_hist d x) (d_hist d' x);
  a_ops : forall n, match E n with
    | Some (q, id, r) => d_ops d n = None /\ d_used d' n = true /\
        exists k, d_ops d' n = Some (mk_dop q id k) /\ early_kind (d_done d) r k
    | None => op_le (d_ops d n) (d_ops d' n)
    end
}.

Lemma newer_cur l l' : newer l l' -> cur l' = cur l.
Proof. intros [H (old & ->)]. destruct l; [contradiction|reflexivity]. Qed.

Lemma newer_trim p p' l l' : (forall m, p' m = true -> p m = true) -> newer l l' -> newer (trim p l) (trim p' l').
Proof.
  intros Hp [Hn (old & ->)]. split; [destruct l as [|e l]; [contradiction|]; cbn; destruct (p (fst e)); discriminate|].
  clear Hn. induction l as [|e l IH]; cbn [trim app].
  - eauto.
  - destruct (p (fst e)) eqn:E1, (p' (fst e)) eqn:E2.
    + exists []. reflexivity.
    + eexists. cbn [app]. reflexivity.
    + rewrite (Hp _ E2) in E1. discriminate.
    + destruct IH as (o & ->). exists o. reflexivity.
Qed.

Lemma newer_refl l : l <> [] -> newer l l.
Proof. intros H. split; auto. exists []. now rewrite app_nil_r. Qed.

(** A crash of the one is a crash of the other. *)
Lemma newer_crash l l' i : newer l l' -> exists j, crashed l' j = crashed l i /\ crashed l i <> [].
Proof.
  intros [Hn (old & ->)]. unfold crashed. destruct (nth_error l i) as [e|] eqn:E.
  - exists i. rewrite nth_error_app1 by (apply nth_error_Some; congruence). rewrite E. split; [reflexivity|discriminate].
  - destruct l as [|e l]; [contradiction|]. exists 0. cbn. split; [reflexivity|discriminate].
Qed.

Lemma newer_choice : forall h h' (p : nat -> nat), (forall x, newer (h x) (h' x)) ->
  exists p', forall x, crashed (h' x) (p' x) = crashed (h x) (p x) /\ crashed (h x) (p x) <> [].
Proof.
  intros h h' p H.
  exists (fun x => match nth_error (h x) (p x) with Some _ => p x | None => 0 end). intros x.
  destruct (H x) as [Hn (old & E')]. rewrite E'. unfold crashed. destruct (nth_error (h x) (p x)) as [e|] eqn:E.
  - rewrite nth_error_app1 by (apply nth_error_Some; congruence). rewrite E. split; [reflexivity|discriminate].
  - destruct (h x) as [|e l]; [contradiction|]. cbn. split; [reflexivity|discriminate].
Qed.

Lemma ahead_cur E d d' x : ahead E d d' -> cur (d_hist d' x) = cur (d_hist d x).
Proof. intros A. apply newer_cur, A. Qed.

Lemma op_at E d d' n o : ahead E d d' -> d_ops d n = Some o -> E n = None /\ op_le (Some o) (d_ops d' n).
Proof.
  intros A Ho. pose proof (a_ops _ _ _ A n) as X. destruct (E n) as [[[q id] r]|]; [destruct X; congruence|].
  rewrite Ho in X. auto.
Qed.

Lemma ops_upd E d d' n x x' : ahead E d d' -> E n = None -> op_le x x' ->
  forall m, match E m with
    | Some (q, id, r) => upd (d_ops d) n x m = None /\ d_used d' m = true /\
        exists k, upd (d_ops d') n x' m = Some (mk_dop q id k) /\ early_kind (d_done d) r k
    | None => op_le (upd (d_ops d) n x m) (upd (d_ops d') n x' m)
    end.
Proof.
  intros A En Hx m. unfold upd. destruct (Nat.eqb_spec m n) as [->|Hm].
  - rewrite En. exact Hx.
  - apply (a_ops _ _ _ A m).
Qed.

(** A step of the slower disk that nobody sees. *)
Lemma ahead_silent E d d' e d1 : ahead E d d' -> dstep size d e = Some (d1, []) ->
  exists d1', dstep size d' e = Some (d1', []) /\ ahead E d1 d1'.
Proof.
  intros A H. destruct e as [n q id r|n i|n i|n ok|p]; cbn [dstep] in H.
  - destruct (d_used d n); discriminate H.
  - destruct (d_ops d n) as [[q id [|off data ap|]]|] eqn:Eo; try discriminate H.
    destruct (op_at _ _ _ _ _ A Eo) as [En (k' & Eo' & Ek)]. cbn in Ek. subst k'.
    destruct (nth_error data i) as [v|] eqn:Ev; [|discriminate H]. destruct (_ && _) eqn:Ec; [|discriminate H].
    injection H as <-. cbn [dstep]. rewrite Eo', Ev, Ec. eexists. split; [reflexivity|].
    split; cbn [d_used d_done d_hist d_ops]; try apply A.
    + intros x. unfold upd. destruct (x =? off + i); [|apply A]. destruct (a_hist _ _ _ A (off + i)) as [Hn (old & ->)].
      split; [discriminate|]. exists old. reflexivity.
    + apply (ops_upd _ _ _ _ _ _ A En). cbn. eauto.
  - destruct (d_ops d n) as [[q id [off len got| |]]|] eqn:Eo; try discriminate H.
    destruct (op_at _ _ _ _ _ A Eo) as [En (k' & Eo' & Ek)]. cbn in Ek. subst k'.
    destruct (_ && _) eqn:Ec; [|discriminate H]. injection H as <-. cbn [dstep]. rewrite Eo', Ec. eexists. split; [reflexivity|].
    unfold set_kind. cbn [d_ch d_id]. split; cbn [d_used d_done d_hist d_ops]; try apply A.
    apply (ops_upd _ _ _ _ _ _ A En). cbn. rewrite (ahead_cur _ _ _ _ A). eauto.
  - destruct (d_ops d n) as [[q id k]|]; [|discriminate H]. destruct ok; [destruct k|];
      repeat match type of H with (if ?c then _ else _) = _ => destruct c; [|discriminate H] end; discriminate H.
  - discriminate H.
Qed.

Lemma ahead_silents E es : forall d d' d1, ahead E d d' -> drun size d es = Some (d1, []) ->
  exists d1', drun size d' es = Some (d1', []) /\ ahead E d1 d1'.
Proof.
  induction es as [|e es IH]; intros d d' d1 A H; cbn [drun] in *.
  - injection H as <-. eauto.
  - destruct (dstep size d e) as [[d2 t2]|] eqn:E1; [|discriminate H].
    destruct (drun size d2 es) as [[d3 t3]|] eqn:E3; [|discriminate H]. injection H as <- Et.
    apply app_eq_nil in Et as [-> ->]. destruct (ahead_silent _ _ _ _ _ A E1) as (d2' & -> & A2).
    destruct (IH _ _ _ A2 E3) as (d3' & -> & A3). eauto.
Qed.

(** The faster disk gets a request. *)
Lemma ahead_early E d d' n q id r : ahead E d d' -> d_used d' n = false -> E n = None -> d_ops d n = None ->
  ahead (upd E n (Some (q, id, r))) d (dissue n q id r d').
Proof.
  intros A Hn En Eo. split; unfold dissue; cbn [d_used d_done d_hist d_ops]; try apply A.
  - intros m Hm. unfold upd. destruct (m =? n); auto. now apply A.
  - intros m. unfold upd at 1. destruct (Nat.eqb_spec m n) as [->|Hm].
    + split; [exact Eo|]. rewrite !upd_eq. split; auto. eexists. split; [reflexivity|].
      destruct r; cbn; auto. exists (d_done d'). split; auto. intros m. now rewrite (a_done _ _ _ A).
    + pose proof (a_ops _ _ _ A m) as X. rewrite !upd_neq by auto.
      destruct (E m) as [[[q0 id0] r0]|]; auto.
Qed.

(** The slower disk gets it. *)
Lemma ahead_issue E d d' n q id r : ahead E d d' -> E n = Some (q, id, r) ->
  ahead (upd E n None) (dissue n q id r d) d'.
Proof.
  intros A En. pose proof (a_ops _ _ _ A n) as X. rewrite En in X. destruct X as (Xo & Xu & k & Xk & Xe).
  split; unfold dissue; cbn [d_used d_done d_hist d_ops]; try apply A.
  - intros m. unfold upd. destruct (Nat.eqb_spec m n) as [->|]; auto. apply A.
  - intros m. unfold upd at 1. destruct (Nat.eqb_spec m n) as [->|Hm].
    + rewrite upd_eq. cbn [op_le]. exists k. split; auto. destruct r; cbn in *; auto.
    + rewrite upd_neq by auto. apply (a_ops _ _ _ A m).
Qed.

(** It is refused before the slower disk gets it. *)
Lemma ahead_refuse E d d' n q id r : ahead E d d' -> E n = Some (q, id, r) ->
  dstep size d' (DDone n false) = Some (finish n d', [TDone n q id false []]) /\ ahead (upd E n None) d (finish n d').
Proof.
  intros A En. pose proof (a_ops _ _ _ A n) as X. rewrite En in X. destruct X as (Xo & Xu & k & Xk & Xe).
  split; [cbn [dstep]; rewrite Xk; reflexivity|].
  split; unfold finish; cbn [d_used d_done d_hist d_ops]; try apply A.
  intros m. unfold upd at 1. destruct (Nat.eqb_spec m n) as [->|Hm].
  - rewrite Xo, upd_eq. reflexivity.
  - rewrite upd_neq by auto. apply (a_ops _ _ _ A m).
Qed.

(** It completes in both. *)
Lemma ahead_done E d d' n ok d1 t : ahead E d d' -> dstep size d (DDone n ok) = Some (d1, t) ->
  exists d1', dstep size d' (DDone n ok) = Some (d1', t) /\ ahead E d1 d1'.
Proof.
  intros A H. cbn [dstep] in H. destruct (d_ops d n) as [[q id k]|] eqn:Eo; [|discriminate H].
  destruct (op_at _ _ _ _ _ A Eo) as [En (k' & Eo' & Ek)]. cbn [dstep]. rewrite Eo'.
  assert (Au : forall h h' dn dn', (forall x, newer (h x) (h' x)) -> (forall m, dn' m = dn m) -> (forall m, d_done d m = true -> dn m = true) ->
    ahead E (mk_disk (upd (d_ops d) n None) (d_used d) h dn) (mk_disk (upd (d_ops d') n None) (d_used d') h' dn')).
  { intros h h' dn dn' Hh Hd Hm. split; cbn [d_used d_done d_hist d_ops]; auto; [apply A|].
    intros m. pose proof (ops_upd _ _ _ _ None None A En eq_refl m) as X. destruct (E m) as [[[q0 id0] r0]|]; auto.
    destruct X as (X1 & X2 & k0 & X3 & X4). split; auto. split; auto. exists k0. split; auto.
    destruct r0; cbn in *; auto. destruct X4 as (s & -> & X4). exists s. split; auto. }
  destruct ok.
  - destruct k as [off len got|off data ap|snap]; cbn [kind_le] in Ek.
    + subst k'. destruct (in_range_all _ _ _ _); [|discriminate H]. injection H as <- <-. eexists. split; [reflexivity|].
      apply Au; auto; apply A.
    + subst k'. destruct (in_range_all _ _ _ _); [|discriminate H]. injection H as <- <-. eexists. split; [reflexivity|].
      apply Au; [apply A| |]; intros m; unfold upd; destruct (m =? n); auto. apply A.
    + destruct Ek as (snap' & -> & Hs). injection H as <- <-. eexists. split; [reflexivity|].
      apply Au; auto; [|apply A]. intros x. apply newer_trim; auto. apply A.
  - injection H as <- <-. eexists. split; [reflexivity|]. apply Au; auto; apply A.
Qed.

(** The power fails. *)
Lemma ahead_crash E d d' p : ahead E d d' ->
  exists p', dstep size d' (DCrash p') = Some (mk_disk (fun _ => None) (d_used d') (fun s => crashed (d_hist d' s) (p' s)) (d_done d'), [TCrash]) /\
    ahead (fun _ => None) (mk_disk (fun _ => None) (d_used d) (fun s => crashed (d_hist d s) (p s)) (d_done d))
      (mk_disk (fun _ => None) (d_used d') (fun s => crashed (d_hist d' s) (p' s)) (d_done d')).
Proof.
  intros A. destruct (newer_choice _ _ p (a_hist _ _ _ A)) as (p' & Hp). exists p'. split; [reflexivity|].
  split; cbn [d_used d_done d_hist d_ops]; try apply A; [|intros n; reflexivity].
  intros x. destruct (Hp x) as [-> Hn]. now apply newer_refl.
Qed.

Lemma ahead_init contents : ahead (fun _ => None) (new_disk contents) (new_disk contents).
Proof. split; cbn; auto. intros x. apply newer_refl. discriminate. Qed.

(** ** What is in flight stays what it is *)
Ltac dcases H := apply dstep_inv in H;
  destruct H as [(n & q & id & r & Hun & -> & ->)
   |[(n & q & id & off & data & ap & ii & vv & Hop & Hnth & Hsz & Hap & -> & ->)
   |[(n & q & id & off & len & got & ii & Hop & Hsz & Hlen & -> & ->)
   |[(n & q & id & k & Hop & -> & ->)
   |[(n & q & id & off & len & got & Hop & Hall & -> & ->)
   |[(n & q & id & off & data & ap & Hop & Hall & -> & ->)
   |[(n & q & id & snap & Hop & -> & ->)
   |(p & -> & ->)]]]]]]]; cbn [d_ops d_used d_hist d_done finish dissue] in *.

Lemma silent_ops (d : disk) e d1 : dstep size d e = Some (d1, []) -> forall n,
  match d_ops d n with
  | None => d_ops d1 n = None
  | Some (mk_dop q id k) => exists k1, d_ops d1 n = Some (mk_dop q id k1) /\ forall r, kind_of r k -> kind_of r k1
  end.
Proof.
  intros H m.
  assert (Keep : match d_ops d m with None => d_ops d m = None
    | Some (mk_dop q id k) => exists k1, d_ops d m = Some (mk_dop q id k1) /\ forall r, kind_of r k -> kind_of r k1 end)
    by (destruct (d_ops d m) as [[q0 id0 k0]|]; eauto).
  remember [] as t eqn:Et in H.
  dcases H; try discriminate Et; unfold upd; destruct (Nat.eqb_spec m n) as [->|Hm]; auto; rewrite Hop.
  - eexists. split; [reflexivity|]. intros [| |] Hk; cbn in *; auto.
  - eexists. split; [reflexivity|]. intros [| |] Hk; cbn in *; auto.
Qed.

Lemma silents_ops es : forall (d d1 : disk), drun size d es = Some (d1, []) -> forall n,
  match d_ops d n with
  | None => d_ops d1 n = None
  | Some (mk_dop q id k) => exists k1, d_ops d1 n = Some (mk_dop q id k1) /\ forall r, kind_of r k -> kind_of r k1
  end.
Proof.
  induction es as [|e es IH]; intros d d1 H n; cbn [drun] in H.
  - injection H as <-. destruct (d_ops d n) as [[q id k]|]; eauto.
  - destruct (dstep size d e) as [[d2 t2]|] eqn:E1; [|discriminate H].
    destruct (drun size d2 es) as [[d3 t3]|] eqn:E3; [|discriminate H]. injection H as <- Et.
    apply app_eq_nil in Et as [-> ->]. pose proof (silent_ops _ _ _ E1 n) as X. pose proof (IH _ _ E3 n) as Y.
    destruct (d_ops d n) as [[q id k]|].
    + destruct X as (k1 & X1 & X2). rewrite X1 in Y. destruct Y as (k2 & Y1 & Y2). exists k2. split; auto.
    + rewrite X in Y. exact Y.
Qed.

(** ** All values satisfy a predicate *)
Section Sized.
Variable ok : V -> Prop.

Definition sized (d : disk) : Prop :=
  (forall x e, x < size -> In e (d_hist d x) -> ok (snd e)) /\
  (forall n q id k, d_ops d n = Some (mk_dop q id k) ->
     match k with
     | DRead _ _ got => forall i v, got i = Some v -> ok v
     | DWrite _ data _ => Forall ok data
     | DFlush _ => True
     end).

Lemma sized_step (d : disk) e d1 t : sized d -> dstep size d e = Some (d1, t) ->
  (forall n q id off data, In (TIssue n q id (RWrite off data)) t -> Forall ok data) -> sized d1.
Proof.
  intros [H1 H2] H Hw. assert (Cu : forall x v, x < size -> cur (d_hist d x) = Some v -> ok v).
  { intros x v Hx Hc. destruct (d_hist d x) as [|e0 l] eqn:E; [discriminate|]. injection Hc as <-. apply (H1 x); auto. rewrite E. now left. }
  dcases H; (split; cbn [d_hist d_ops finish dissue]; [intros x e0 Hx Hin|intros m q0 id0 k0 Hm]); eauto.
  - unfold upd in Hm. destruct (Nat.eqb_spec m n) as [->|]; [|exact (H2 _ _ _ _ Hm)]. injection Hm as <- <- <-.
    destruct r as [off len|off data|]; cbn; auto; [discriminate|]. eapply (Hw n q id off). now left.
  - unfold upd in Hin. destruct (Nat.eqb_spec x (off + ii)) as [->|]; [|now apply (H1 x)].
    destruct Hin as [<-|Hin]; [|now apply (H1 (off + ii))].
    pose proof (H2 _ _ _ _ Hop) as F. cbn in F. rewrite Forall_forall in F. apply F. eapply nth_error_In; eauto.
  - unfold upd in Hm. destruct (Nat.eqb_spec m n) as [->|]; [|exact (H2 _ _ _ _ Hm)]. injection Hm as <- <- <-. exact (H2 _ _ _ _ Hop).
  - unfold upd in Hm. destruct (Nat.eqb_spec m n) as [->|]; [|exact (H2 _ _ _ _ Hm)]. injection Hm as <- <- <-.
    intros i v Hi. unfold upd in Hi. destruct (i =? ii); [eapply Cu; eauto|]. exact (H2 _ _ _ _ Hop i v Hi).
  - unfold upd in Hm. destruct (Nat.eqb_spec m n) as [->|]; [discriminate|exact (H2 _ _ _ _ Hm)].
  - unfold upd in Hm. destruct (Nat.eqb_spec m n) as [->|]; [discriminate|exact (H2 _ _ _ _ Hm)].
  - unfold upd in Hm. destruct (Nat.eqb_spec m n) as [->|]; [discriminate|exact (H2 _ _ _ _ Hm)].
  - apply (H1 x); auto. eapply trim_in; eauto.
  - unfold upd in Hm. destruct (Nat.eqb_spec m n) as [->|]; [discriminate|exact (H2 _ _ _ _ Hm)].
  - destruct (crashed_from _ _ _ Hin) as (e1 & Hi & ->). now apply (H1 x).
  - discriminate Hm.
Qed.

Lemma sized_run es : forall d d1 t, sized d -> drun size d es = Some (d1, t) ->
  (forall n q id off data, In (TIssue n q id (RWrite off data)) t -> Forall ok data) -> sized d1.
Proof.
  induction es as [|e es IH]; intros d d1 t S H Hw; cbn [drun] in H.
  - injection H as <- <-. exact S.
  - destruct (dstep size d e) as [[d2 t2]|] eqn:E1; [|discriminate H].
    destruct (drun size d2 es) as [[d3 t3]|] eqn:E3; [|discriminate H]. injection H as <- <-.
    eapply IH; [|exact E3|]; [eapply sized_step; [exact S|exact E1|]|]; intros n q id off data Hin; eapply Hw; apply in_or_app; eauto.
Qed.
End Sized.
End Ahead.
